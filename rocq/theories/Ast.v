(** * The abstract syntax tree and its builder

    Model of packages/gurke/src/gurke/ast_node.py and ast_builder.py.

    Identifiers: stream/id_generator.py:5-8 returns [str(n)] for n = 0, 1, 2, ..;
    the model keeps the number [n].  ([str_of_nat] is injective, lemma
    [str_of_nat_inj] in PyStrFacts.v, so nothing is lost.)

    The dictionaries that ast_builder.py creates become records.  A key that
    [reject_nones] (ast_builder.py:275-276) may drop becomes an option. *)
From Verif Require Import PyStr Types Regex Line.

(** ast_builder.py:57-61 *)
Record tag := mkTag { tag_id : nat; tag_loc : location; tag_name : str }.
(** ast_builder.py:90-92 *)
Record cell := mkCell { cell_loc : location; cell_value : str }.
(** ast_builder.py:69-73 *)
Record row := mkRow { row_id : nat; row_loc : location; row_cells : list cell }.
(** ast_builder.py:130-137 *)
Record docstring := mkDoc {
  ds_loc : location; ds_content : str; ds_delimiter : option str; ds_media : option str }.
(** ast_builder.py:140-145 *)
Record datatable := mkTable { dt_loc : location; dt_rows : list row }.
Inductive steparg := ANone | ATable (t : datatable) | ADoc (d : docstring).
(** ast_builder.py:114-123 *)
Record step := mkStep {
  st_id : nat; st_loc : location; st_keyword : option str; st_ktype : option ktype;
  st_text : option str; st_arg : steparg }.
(** ast_builder.py:151-160 *)
Record background := mkBackground {
  bg_id : nat; bg_loc : location; bg_keyword : option str; bg_name : option str;
  bg_desc : str; bg_steps : list step }.
(** ast_builder.py:190-201 *)
Record examples := mkExamples {
  ex_id : nat; ex_tags : list tag; ex_loc : location; ex_keyword : option str;
  ex_name : option str; ex_desc : str; ex_header : option row; ex_body : list row }.
(** ast_builder.py:169-180 *)
Record scenario := mkScenario {
  sc_id : nat; sc_tags : list tag; sc_loc : location; sc_keyword : option str;
  sc_name : option str; sc_desc : str; sc_steps : list step; sc_examples : list examples }.
(** ast_builder.py:220-237: the "children" of a rule are kept as two fields; the optional
    background comes first *)
Record rule_ast := mkRule {
  ru_id : nat; ru_tags : list tag; ru_loc : location; ru_keyword : option str;
  ru_name : option str; ru_desc : str; ru_background : option background;
  ru_scenarios : list scenario }.
(** ast_builder.py:248-267: the "children" list is the optional background, then
    the scenarios, then the rules (:248-253); it is kept as three fields. *)
Record feature := mkFeature {
  fe_tags : list tag; fe_loc : location; fe_language : option str; fe_keyword : option str;
  fe_name : option str; fe_desc : str; fe_background : option background;
  fe_scenarios : list scenario; fe_rules : list rule_ast }.
(** ast_builder.py:35 *)
Record comment := mkComment { cm_loc : location; cm_text : option str }.
(** ast_builder.py:268-271 *)
Record gdoc := mkGdoc { gd_feature : option feature; gd_comments : list comment }.

(** ast_node.py:9-12 [AstNode]: [_sub_items] is a defaultdict of lists; the model
    keeps one list of (key, value) pairs in order of insertion. *)
Inductive key := KTok (t : tok) | KRule (r : rule) | KNone.
Inductive item :=
| ITok (t : token)                  (* a Token *)
| INode (r : rule) (subs : list (key * item))   (* an AstNode returned unchanged, :273 *)
| IStep (x : step)
| IDoc (x : docstring)
| ITable (x : datatable)
| IBackground (x : background)
| IScenario (x : scenario)
| IExamples (x : examples)
| IRows (x : list row)
| IDesc (x : str)
| IRule (x : rule_ast)
| IFeature (x : feature)
| IGdoc (x : gdoc)
| INone.
Record node := mkNode { n_rule : rule; n_subs : list (key * item) }.

Definition key_eqb (a b : key) : bool :=
  match a, b with
  | KTok x, KTok y => tok_eqb x y
  | KRule x, KRule y => rule_eqb x y
  | KNone, KNone => true
  | _, _ => false
  end.

(** ast_node.py:14-15 [add] *)
Definition n_add (n : node) (k : key) (i : item) : node := mkNode (n_rule n) (n_subs n ++ [(k, i)]).
(** ast_node.py:20-21 [get_items] *)
Definition get_items (n : node) (k : key) : list item :=
  map snd (filter (fun p => key_eqb (fst p) k) (n_subs n)).
(** ast_node.py:17-18 [get_single] *)
Definition get_single (n : node) (k : key) : option item := hd_error (get_items n k).
(** ast_node.py:26-27 [get_tokens] *)
Definition get_tokens (n : node) (k : tok) : list token :=
  flat_map (fun i => match i with ITok t => [t] | _ => [] end) (get_items n (KTok k)).
(** ast_node.py:23-24 [get_token] followed by an attribute access on the result *)
Definition get_token (n : node) (k : tok) : result token :=
  match get_single n (KTok k) with Some (ITok t) => Ok t | _ => Err EAttributeError end.

(** ast_builder.py:46-47 [get_location] *)
Definition get_location (t : token) (column : nat) : location :=
  match column with O => t_location t | _ => mkLoc (t_loc_line t) (Some column) end.

(** ast_builder.py:55-63: the tags of one line, with the next identifier *)
Fixpoint tags_of_items (t : token) (items : list mitem) (id : nat) : list tag * nat :=
  match items with
  | [] => ([], id)
  | i :: rest =>
      let (l, id') := tags_of_items t rest (S id) in
      (mkTag id (get_location t (i_column i)) (i_text i) :: l, id')
  end.
Fixpoint tags_of_tokens (ts : list token) (id : nat) : list tag * nat :=
  match ts with
  | [] => ([], id)
  | t :: rest =>
      let (l1, id1) := tags_of_items t (t_items t) id in
      let (l2, id2) := tags_of_tokens rest id1 in
      (l1 ++ l2, id2)
  end.
(** ast_builder.py:49-65 [get_tags] *)
Definition get_tags (n : node) (id : nat) : list tag * nat :=
  match get_single n (KRule RTags) with
  | Some (INode r subs) => tags_of_tokens (get_tokens (mkNode r subs) TkTagLine) id
  | _ => ([], id)
  end.

(** ast_builder.py:88-94 [get_cells] *)
Definition get_cells (t : token) : list cell :=
  map (fun i => mkCell (get_location t (i_column i)) (i_text i)) (t_items t).
(** ast_builder.py:68-75 *)
Fixpoint rows_of_tokens (ts : list token) (id : nat) : list row * nat :=
  match ts with
  | [] => ([], id)
  | t :: rest =>
      let (l, id') := rows_of_tokens rest (S id) in
      (mkRow id (t_location t) (get_cells t) :: l, id')
  end.
(** ast_builder.py:79-86 [ensure_cell_count]; [mk_perr] is errors.py:11-16 *)
Definition perr_text (msg : str) (loc : location) : str :=
  s "(" ++ str_of_nat (l_line loc) ++ s ":" ++
  str_of_nat (match l_col loc with Some c => c | None => 0 end) ++ s "): " ++ msg.
Definition ensure_cell_count (rows : list row) : result unit :=
  match rows with
  | [] => Ok tt
  | r0 :: _ =>
      match find (fun r => negb (Nat.eqb (length (row_cells r)) (length (row_cells r0)))) rows with
      | Some r => Err (EParser (mkPErr KAstBuilder
                    (perr_text (s "inconsistent cell count within the table") (row_loc r)) (row_loc r)))
      | None => Ok tt
      end
  end.
(** ast_builder.py:67-77 [get_table_rows].  The identifiers are consumed before the check. *)
Definition get_table_rows (n : node) (id : nat) : result (list row) * nat :=
  let (rows, id') := rows_of_tokens (get_tokens n TkTableRow) id in
  (rbind (ensure_cell_count rows) (fun _ => Ok rows), id').

(** ast_builder.py:96-97 [get_description] *)
Definition get_description (n : node) : str :=
  match get_single n (KRule RDescription) with Some (IDesc x) => x | _ => [] end.

(** ast_builder.py:99-100 [get_steps] and the other uses of [get_items]; the
    values stored under these keys are the results of [transform_node] for nodes
    of the same rule, so no other constructor occurs there. *)
Definition get_steps (n : node) : list step :=
  flat_map (fun i => match i with IStep x => [x] | _ => [] end) (get_items n (KRule RStep)).
Definition get_examples (n : node) : list examples :=
  flat_map (fun i => match i with IExamples x => [x] | _ => [] end) (get_items n (KRule RExamplesDefinition)).
Definition get_scenarios (n : node) : list scenario :=
  flat_map (fun i => match i with IScenario x => [x] | _ => [] end) (get_items n (KRule RScenarioDefinition)).
Definition get_rules (n : node) : list rule_ast :=
  flat_map (fun i => match i with IRule x => [x] | _ => [] end) (get_items n (KRule RRule)).
Definition get_background (n : node) : option background :=
  match get_single n (KRule RBackground) with Some (IBackground b) => Some b | _ => None end.
(** [node.get_single(r)] used as an AstNode *)
Definition get_node (n : node) (r : rule) : option node :=
  match get_single n (KRule r) with Some (INode r' subs) => Some (mkNode r' subs) | _ => None end.

(** ast_builder.py:207: the index of the last token with a non-empty text,
    plus one; None is StopIteration *)
Fixpoint last_non_empty (l : list token) : option nat :=
  match l with
  | [] => None
  | t :: l' =>
      match last_non_empty l' with
      | Some n => Some (S n)
      | None => match t_text t with Some (_ :: _) => Some 1 | _ => None end
      end
  end.
Definition text_of (t : token) : str := match t_text t with Some x => x | None => [] end.

(** ast_builder.py:102-273 [transform_node]: the result and the next identifier *)
Definition transform_node (n : node) (comments : list comment) (id : nat) : result item * nat :=
  match n_rule n with
  | RStep =>                                                                     (* :103-123 *)
      match get_token n TkStepLine with
      | Err e => (Err e, S id)
      | Ok line =>
          let arg := match get_single n (KRule RDataTable) with
                     | Some (ITable t) => ATable t
                     | _ => match get_single n (KRule RDocString) with
                            | Some (IDoc d) => ADoc d
                            | _ => ANone
                            end
                     end in
          (Ok (IStep (mkStep id (t_location line) (t_keyword line) (t_ktype line) (t_text line) arg)), S id)
      end
  | RDocString =>                                                                (* :124-137 *)
      match get_tokens n TkDocStringSeparator with
      | [] => (Err EIndexError, id)
      | sep :: _ =>
          match t_text sep with
          | None => (Err ETypeError, id)                                         (* len(None) *)
          | Some media =>
              (Ok (IDoc (mkDoc (t_location sep)
                     (join [ch_nl] (map text_of (get_tokens n TkOther)))
                     (t_keyword sep)
                     (match media with [] => None | _ => Some media end))), id)
          end
      end
  | RDataTable =>                                                                (* :138-145 *)
      match get_table_rows n id with
      | (Err e, id') => (Err e, id')
      | (Ok [], id') => (Err EIndexError, id')
      | (Ok ((r0 :: _) as rows), id') => (Ok (ITable (mkTable (row_loc r0) rows)), id')
      end
  | RBackground =>                                                               (* :146-160 *)
      match get_token n TkBackgroundLine with
      | Err e => (Err e, S id)
      | Ok line =>
          (Ok (IBackground (mkBackground id (t_location line) (t_keyword line) (t_text line)
                 (get_description n) (get_steps n))), S id)
      end
  | RScenarioDefinition =>                                                       (* :161-180 *)
      let (tags, id1) := get_tags n id in
      match get_node n RScenario with
      | None => (Err EAttributeError, id1)
      | Some sn =>
          match get_token sn TkScenarioLine with
          | Err e => (Err e, S id1)
          | Ok line =>
              (Ok (IScenario (mkScenario id1 tags (t_location line) (t_keyword line) (t_text line)
                     (get_description sn) (get_steps sn) (get_examples sn))), S id1)
          end
      end
  | RExamplesDefinition =>                                                       (* :181-201 *)
      let (tags, id1) := get_tags n id in
      match get_node n RExamples with
      | None => (Err EAttributeError, id1)
      | Some en =>
          match get_token en TkExamplesLine with
          | Err e => (Err e, S id1)
          | Ok line =>
              let rows := match get_single en (KRule RExamplesTable) with
                          | Some (IRows l) => l
                          | _ => []
                          end in
              (Ok (IExamples (mkExamples id1 tags (t_location line) (t_keyword line) (t_text line)
                     (get_description en) (hd_error rows) (tl rows))), S id1)
          end
      end
  | RExamplesTable =>                                                            (* :202-203 *)
      match get_table_rows n id with
      | (Err e, id') => (Err e, id')
      | (Ok rows, id') => (Ok (IRows rows), id')
      end
  | RDescription =>                                                              (* :204-208 *)
      let ts := get_tokens n TkOther in
      match last_non_empty ts with
      | None => (Err EStopIteration, id)
      | Some k => (Ok (IDesc (join [ch_nl] (map text_of (firstn k ts)))), id)
      end
  | RRule =>                                                                     (* :210-237 *)
      match get_node n RRuleHeader with
      | None => (Ok INone, id)
      | Some h =>
          let (tags, id1) := get_tags h id in
          match get_token h TkRuleLine with
          | Err _ => (Ok INone, id1)
          | Ok line =>
              (Ok (IRule (mkRule id1 tags (t_location line) (t_keyword line) (t_text line)
                     (get_description h) (get_background n) (get_scenarios n))), S id1)
          end
      end
  | RFeature =>                                                                  (* :238-267 *)
      match get_node n RFeatureHeader with
      | None => (Ok INone, id)
      | Some h =>
          let (tags, id1) := get_tags h id in
          match get_token h TkFeatureLine with
          | Err _ => (Ok INone, id1)
          | Ok line =>
              (Ok (IFeature (mkFeature tags (t_location line) (t_dialect line) (t_keyword line) (t_text line)
                     (get_description h) (get_background n) (get_scenarios n) (get_rules n))), id1)
          end
      end
  | RGherkinDocument =>                                                          (* :268-271 *)
      (Ok (IGdoc (mkGdoc (match get_single n (KRule RFeature) with Some (IFeature f) => Some f | _ => None end)
                         comments)), id)
  | _ => (Ok (INode (n_rule n) (n_subs n)), id)                                  (* :273 *)
  end.
