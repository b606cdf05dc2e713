(** * What pickles are, stated without the compiler

    This file does not use Compiler.v except for the record types of its output.  A pickle
    comes from an [origin]: a scenario without examples, or a scenario together with a row of
    one of its examples tables; a scenario stands in the feature itself or in a rule. *)
From Verif Require Import PyStr Types Regex Line Ast IdSpec Compiler.

Record origin := mkOrigin { o_rule : option rule_ast; o_scenario : scenario; o_row : option (examples * row * row) }.

(** in document order: header row and body row of each examples table with a header *)
Definition examples_origins (ru : option rule_ast) (sc : scenario) (ex : examples) : list origin :=
  match ex_header ex with
  | None => []
  | Some h => map (fun r => mkOrigin ru sc (Some (ex, h, r))) (ex_body ex)
  end.
Definition scenario_origins (ru : option rule_ast) (sc : scenario) : list origin :=
  match sc_examples sc with
  | [] => [mkOrigin ru sc None]
  | exs => flat_map (examples_origins ru sc) exs
  end.
Definition feature_origins (f : feature) : list origin :=
  flat_map (scenario_origins None) (fe_scenarios f) ++
  flat_map (fun ru => flat_map (scenario_origins (Some ru)) (ru_scenarios ru)) (fe_rules f).
Definition origins (d : gdoc) : list origin :=
  match gd_feature d with None => [] | Some f => feature_origins f end.

(** the document nodes a pickle names: the scenario and the row *)
Definition origin_nodes (o : origin) : list nat :=
  sc_id (o_scenario o) :: match o_row o with None => [] | Some (_, _, r) => [row_id r] end.

(** tags: feature, rule, scenario, examples table *)
Definition origin_tags (f : feature) (o : origin) : list tag :=
  fe_tags f ++ match o_rule o with None => [] | Some ru => ru_tags ru end ++ sc_tags (o_scenario o) ++
  match o_row o with None => [] | Some (ex, _, _) => ex_tags ex end.

(** steps: feature background, rule background, scenario; none at all if the scenario has none *)
Definition background_steps (b : option background) : list step := match b with None => [] | Some b => bg_steps b end.
Definition inherited_steps (f : feature) (o : origin) : list step :=
  match sc_steps (o_scenario o) with
  | [] => []
  | _ => background_steps (fe_background f) ++ match o_rule o with None => [] | Some ru => background_steps (ru_background ru) end
  end.
(** a pickle step names its step and, for a step of the scenario, the row *)
Definition step_nodes (f : feature) (o : origin) : list (list nat) :=
  map (fun st => [st_id st]) (inherited_steps f o) ++
  map (fun st => st_id st :: match o_row o with None => [] | Some (_, _, r) => [row_id r] end) (sc_steps (o_scenario o)).
Definition origin_steps (f : feature) (o : origin) : list step := inherited_steps f o ++ sc_steps (o_scenario o).

(** all identifiers of a pickle, in the order in which they are handed out *)
Definition pickle_ids (p : pickle) : list nat := map ps_id (pk_steps p) ++ [pk_id p].

(** the type of the [i]-th of the steps with keyword types [kts]: its own, or that of the nearest
    step before it that is not a conjunction, or [dflt] *)
Definition conj (k : option ktype) : Prop := k = Some KtConjunction.
Definition step_type (dflt : option ktype) (kts : list (option ktype)) (i : nat) (ty : option ktype) : Prop :=
  exists k, nth_error kts i = Some k /\
  (~ conj k /\ ty = k \/
   conj k /\ (exists j kj, j < i /\ nth_error kts j = Some kj /\ ~ conj kj /\ ty = kj /\
              forall m km, j < m < i -> nth_error kts m = Some km -> conj km) \/
   conj k /\ (forall m km, m < i -> nth_error kts m = Some km -> conj km) /\ ty = dflt).

(** ** Placeholders *)
Definition prefix (p x : str) : Prop := exists z, x = p ++ z.
(** [y] is [x] with every occurrence of [pat] replaced, from left to right, by [new] *)
Inductive replaced (pat new : str) : str -> str -> Prop :=
| rp_nil : replaced pat new [] []
| rp_hit x y : replaced pat new x y -> replaced pat new (pat ++ x) (new ++ y)
| rp_miss c x y : ~ prefix pat (c :: x) -> replaced pat new x y -> replaced pat new (c :: x) (c :: y).
(** [<header>] *)
Definition placeholder (h : str) : str := s "<" ++ h ++ s ">".
(** the columns are processed from left to right *)
Inductive filled : list (str * str) -> str -> str -> Prop :=
| fl_nil x : filled [] x x
| fl_cons h v cols x y z : replaced (placeholder h) v x y -> filled cols y z -> filled ((h, v) :: cols) x z.
(** the columns of an origin: header and value *)
Definition columns (o : origin) : list (str * str) :=
  match o_row o with
  | None => []
  | Some (_, h, r) => combine (map cell_value (row_cells h)) (map cell_value (row_cells r))
  end.
Definition header_names (o : origin) : list str :=
  match o_row o with None => [] | Some (_, h, _) => map cell_value (row_cells h) end.
(** the characters that are special in a regular expression; [{] is special only before a digit or a comma, and the closing
    bracket and brace only after an opening one *)
Definition metachar (c : char) : Prop := In c (s "\.^$*+?[|()").
Definition repetition (h : str) : Prop := exists a c b, h = a ++ s "{" ++ c :: b /\ In c (s "0123456789,").
Definition plain (h : str) : Prop := (forall c, In c h -> ~ metachar c) /\ ~ repetition h.

(** step argument: table cells, doc string content and media type *)
Inductive arg_filled (cols : list (str * str)) : steparg -> option parg -> Prop :=
| af_none : arg_filled cols ANone None
| af_table t rows : Forall2 (fun r vs => Forall2 (fun c v => filled cols (cell_value c) v) (row_cells r) vs) (dt_rows t) rows ->
    arg_filled cols (ATable t) (Some (PTable rows))
| af_doc d c m : filled cols (ds_content d) c ->
    match ds_media d, m with None, None => True | Some x, Some y => filled cols x y | _, _ => False end ->
    arg_filled cols (ADoc d) (Some (PDoc c m)).
(** a step of the document and its pickle step *)
Definition step_filled (cols : list (str * str)) (st : step) (p : pstep) : Prop :=
  (exists x, st_text st = Some x /\ filled cols x (ps_text p)) /\ arg_filled cols (st_arg st) (ps_arg p).

(** ** Documents as the parser returns them *)
Definition located (l : location) : Prop := exists c, l_col l = Some c.
Definition step_complete (st : step) : Prop :=
  (exists k, st_ktype st = Some k) /\ (exists x, st_text st = Some x) /\ (exists kw, st_keyword st = Some kw) /\ located (st_loc st).
Definition rows_width (n : nat) (l : list row) : Prop := Forall (fun r => length (row_cells r) = n) l.
Definition step_rectangular (st : step) : Prop :=
  match st_arg st with ATable t => exists n, rows_width n (dt_rows t) | _ => True end.
Definition examples_rectangular (ex : examples) : Prop :=
  match ex_header ex with None => ex_body ex = [] | Some h => rows_width (length (row_cells h)) (ex_body ex) end.
Definition tags_wf (l : list tag) : Prop := Forall (fun t => exists x, tag_name t = ch_at :: x) l.
Definition examples_wf (ex : examples) : Prop := examples_rectangular ex /\ (exists kw, ex_keyword ex = Some kw) /\ tags_wf (ex_tags ex).
Definition step_wf (st : step) : Prop := step_complete st /\ step_rectangular st.
Definition background_wf (b : background) : Prop := Forall step_wf (bg_steps b).
Definition scenario_wf (sc : scenario) : Prop :=
  ((exists n, sc_name sc = Some n) /\ located (sc_loc sc) /\ tags_wf (sc_tags sc)) /\ Forall step_wf (sc_steps sc) /\ Forall examples_wf (sc_examples sc).
Definition opt_wf {A} (P : A -> Prop) (x : option A) : Prop := match x with None => True | Some a => P a end.
Definition rule_wf (ru : rule_ast) : Prop := opt_wf background_wf (ru_background ru) /\ Forall scenario_wf (ru_scenarios ru) /\ tags_wf (ru_tags ru).
Definition feature_wf (f : feature) : Prop :=
  ((exists l, fe_language f = Some l) /\ (exists n, fe_name f = Some n) /\ tags_wf (fe_tags f)) /\ opt_wf background_wf (fe_background f) /\ Forall scenario_wf (fe_scenarios f) /\ Forall rule_wf (fe_rules f).
Definition doc_wf (d : gdoc) : Prop := opt_wf feature_wf (gd_feature d).
(** no header of an examples table that is used has a special character *)
Definition plain_headers (d : gdoc) : Prop := Forall (fun o => Forall plain (header_names o)) (origins d).
