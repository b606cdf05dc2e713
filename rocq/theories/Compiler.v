(** * Pickles

    Model of packages/gurke/src/gurke/pickles/compiler.py.  Identifiers are numbers,
    see Ast.v; the compiler has an id generator of its own, or shares one. *)
From Verif Require Import PyStr Types Regex Line Ast.

(** compiler.py:124-139 [_create_pickle_arguments]: {"dataTable": ..} or {"docString": ..} *)
Inductive parg :=
| PTable (rows : list (list str))
| PDoc (content : str) (media : option str).
(** compiler.py:102-109, 153-161 *)
Record pstep := mkPs {
  ps_nodes : list nat; ps_id : nat; ps_type : option ktype; ps_text : str; ps_arg : option parg }.
(** compiler.py:168 *)
Record ptag := mkPt { pt_node : nat; pt_name : str }.
(** compiler.py:66-74, 113-121; the key "uri" is left out: it is the argument passed through *)
Record pickle := mkPickle {
  pk_nodes : list nat; pk_id : nat; pk_tags : list ptag; pk_name : str;
  pk_language : str; pk_steps : list pstep }.

(** [d[k]] for a key that [reject_nones] may have dropped *)
Definition get_key {A} (k : str) (o : option A) : result A :=
  match o with Some a => Ok a | None => Err (EKeyError k) end.

(** compiler.py:148: [re.sub] of every backslash by two backslashes *)
Definition reescape (x : str) : str :=
  flat_map (fun c => if (c =? ch_bslash)%N then [ch_bslash; ch_bslash] else [c]) x.

(** compiler.py:149: [re.sub("<" + header + ">", reescaped_value, name)]: the header is
    used as a regular expression, the value as a replacement template *)
Definition subst_one (header value name : str) : result str :=
  rbind (re_parse (s "<" ++ header ++ s ">")) (fun r =>
    rbind (template_literal (reescape value)) (fun by_ => Ok (re_sub r by_ name))).

(** compiler.py:141-150 [_interpolate]; the argument is never None here *)
Fixpoint interpolate (name : str) (variables values : list cell) : result str :=
  match variables with
  | [] => Ok name
  | v :: variables' =>
      match values with
      | [] => Err EIndexError                                              (* :146 *)
      | w :: values' =>
          rbind (subst_one (cell_value v) (cell_value w) name)
                (fun name' => interpolate name' variables' values')
      end
  end.

Fixpoint map_result {A B} (f : A -> result B) (l : list A) : result (list B) :=
  match l with
  | [] => Ok []
  | a :: l' => rbind (f a) (fun b => rbind (map_result f l') (fun bs => Ok (b :: bs)))
  end.

(** compiler.py:124-139 [_create_pickle_arguments] *)
Definition create_pickle_arguments (st : step) (variables values : list cell) : result (option parg) :=
  match st_arg st with
  | ATable t =>
      rbind (map_result (fun r => map_result (fun c => interpolate (cell_value c) variables values) (row_cells r))
                        (dt_rows t))
            (fun rows => Ok (Some (PTable rows)))
  | ADoc d =>
      rbind (interpolate (ds_content d) variables values) (fun content =>
        match ds_media d with
        | None => Ok (Some (PDoc content None))
        | Some m => rbind (interpolate m variables values) (fun m' => Ok (Some (PDoc content (Some m'))))
        end)
  | ANone => Ok None
  end.

(** compiler.py:164-168 [_pickle_tags], [_pickle_tag] *)
Definition pickle_tags (l : list tag) : list ptag := map (fun t => mkPt (tag_id t) (tag_name t)) l.

(** compiler.py:63, 88-90, 95-99: the variable [last_keyword_type] *)
Definition next_type (last : option ktype) (st : step) : result (option ktype) :=
  rbind (get_key (s "keywordType") (st_ktype st)) (fun kt =>
    Ok (match kt with KtConjunction => last | _ => Some kt end)).

(** compiler.py:152-162 [_pickle_step], and :100-109 for a step of an outline
    ([nodes] = [step id; row id], variables and values of the examples table).
    The identifier is drawn before (:155) or after (:104) interpolation; when
    interpolation raises, compile raises and the identifier does not matter. *)
Definition pickle_step (st : step) (nodes : list nat) (kt : option ktype) (variables values : list cell)
  (id : nat) : result pstep :=
  rbind (get_key (s "text") (st_text st)) (fun text =>
    rbind (interpolate text variables values) (fun text' =>
      rbind (create_pickle_arguments st variables values) (fun arg =>
        Ok (mkPs nodes id kt text' arg)))).

(** the loops over steps: compiler.py:62-64, 87-91, 94-111.  [extra] is [] or [row id]. *)
Fixpoint pickle_steps (steps : list step) (extra : list nat) (variables values : list cell)
  (last : option ktype) (id : nat) : result (list pstep * option ktype * nat) :=
  match steps with
  | [] => Ok ([], last, id)
  | st :: steps' =>
      rbind (next_type last st) (fun last' =>
        rbind (pickle_step st (st_id st :: extra) last' variables values id) (fun p =>
          rbind (pickle_steps steps' extra variables values last' (S id)) (fun q =>
            let '(ps, last'', id') := q in Ok (p :: ps, last'', id'))))
  end.

(** compiler.py:57-75 [_compile_scenario] *)
Definition compile_scenario (inherited : list tag) (bgsteps : list step) (sc : scenario)
  (language : str) (id : nat) : result (list pickle * nat) :=
  rbind (match sc_steps sc with
         | [] => Ok ([], Some KtUnknown, id)
         | _ => pickle_steps (bgsteps ++ sc_steps sc) [] [] [] (Some KtUnknown) id
         end) (fun q =>
    let '(steps, _, id1) := q in
    rbind (get_key (s "name") (sc_name sc)) (fun name =>
      Ok ([mkPickle [sc_id sc] id1 (pickle_tags (inherited ++ sc_tags sc)) name language steps], S id1))).

(** compiler.py:82-122: one row of an examples table *)
Definition compile_row (inherited : list tag) (bgsteps : list step) (sc : scenario) (ex : examples)
  (variables : list cell) (language : str) (r : row) (id : nat) : result (pickle * nat) :=
  rbind (match sc_steps sc with
         | [] => Ok ([], None, id)
         | _ => pickle_steps bgsteps [] [] [] None id                              (* :86-91 *)
         end) (fun q1 =>
    let '(steps1, last, id1) := q1 in
    rbind (pickle_steps (sc_steps sc) [row_id r] variables (row_cells r) last id1) (fun q2 =>
      let '(steps2, _, id2) := q2 in
      rbind (get_key (s "name") (sc_name sc)) (fun name =>
        rbind (interpolate name variables (row_cells r)) (fun name' =>
          Ok (mkPickle [sc_id sc; row_id r] id2
                (pickle_tags (inherited ++ sc_tags sc ++ ex_tags ex)) name' language (steps1 ++ steps2),
              S id2))))).

(** a loop that appends to [pickles] *)
Fixpoint compile_seq {A} (f : A -> nat -> result (list pickle * nat)) (l : list A) (id : nat)
  : result (list pickle * nat) :=
  match l with
  | [] => Ok ([], id)
  | a :: l' =>
      rbind (f a id) (fun q => rbind (compile_seq f l' (snd q)) (fun q' => Ok (fst q ++ fst q', snd q')))
  end.

(** compiler.py:77-122 [_compile_scenario_outline] *)
Definition compile_examples (inherited : list tag) (bgsteps : list step) (sc : scenario) (language : str)
  (ex : examples) (id : nat) : result (list pickle * nat) :=
  match ex_header ex with
  | None => Ok ([], id)
  | Some h =>
      compile_seq (fun r id => rbind (compile_row inherited bgsteps sc ex (row_cells h) language r id)
                                     (fun q => Ok ([fst q], snd q)))
                  (ex_body ex) id
  end.
Definition compile_outline (inherited : list tag) (bgsteps : list step) (sc : scenario)
  (language : str) (id : nat) : result (list pickle * nat) :=
  compile_seq (compile_examples inherited bgsteps sc language) (sc_examples sc) id.

(** compiler.py:34-37 and 51-54 *)
Definition compile_one (inherited : list tag) (bgsteps : list step) (language : str)
  (sc : scenario) (id : nat) : result (list pickle * nat) :=
  match sc_examples sc with
  | [] => compile_scenario inherited bgsteps sc language id
  | _ => compile_outline inherited bgsteps sc language id
  end.

Definition bg_steps_of (b : option background) : list step :=
  match b with Some b => bg_steps b | None => [] end.

(** compiler.py:40-55 [_compile_rule]; the children are the background, then the scenarios *)
Definition compile_rule (feature_tags : list tag) (feature_bg : list step) (language : str)
  (ru : rule_ast) (id : nat) : result (list pickle * nat) :=
  compile_seq (compile_one (feature_tags ++ ru_tags ru)
                           (feature_bg ++ bg_steps_of (ru_background ru)) language)
              (ru_scenarios ru) id.

(** compiler.py:12-38 [compile]; the children are the background, the scenarios, the rules *)
Definition compile (d : gdoc) (id : nat) : result (list pickle * nat) :=
  match gd_feature d with
  | None => Ok ([], id)                                                            (* :14-15 *)
  | Some f =>
      match fe_background f, fe_scenarios f, fe_rules f with
      | None, [], [] => Ok ([], id)                                                (* :18-19 *)
      | _, _, _ =>
          rbind (get_key (s "language") (fe_language f)) (fun language =>
            let bg := bg_steps_of (fe_background f) in
            rbind (compile_seq (compile_one (fe_tags f) bg language) (fe_scenarios f) id) (fun q1 =>
              rbind (compile_seq (compile_rule (fe_tags f) bg language) (fe_rules f) (snd q1)) (fun q2 =>
                Ok (fst q1 ++ fst q2, snd q2))))
      end
  end.
