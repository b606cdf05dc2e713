(** * Building Robot Framework suites

    Model of src/GherkinParser/gherkin_builder.py.  Robot Framework's own classes
    (File, TestCase, KeywordCall, ..) are records of the arguments given to them. *)
From Verif Require Import PyStr Types Regex Line Matcher Ast Parser Compiler Glob.
Local Open Scope N_scope.

(** ** repr of strings (CPython unicode_repr) *)

Definition hex_digit (n : N) : char := if n <? 10 then 48 + n else 87 + n.
Fixpoint hex (digits : nat) (n : N) : str :=
  match digits with
  | O => []
  | S k => hex k (n / 16) ++ [hex_digit (n mod 16)]
  end.

Section Repr.
(** [printable c]: [str.isprintable] on one character.  The Unicode tables are not
    modelled; what is assumed about them is stated with the theorems. *)
Variable printable : char -> bool.

(** the body of repr for one character, [q] is the quote *)
Definition repr_char (q c : char) : str :=
  if (c =? q) || (c =? ch_bslash) then [ch_bslash; c]
  else if c =? ch_tab then s "\t"
  else if c =? ch_nl then s "\n"
  else if c =? ch_cr then s "\r"
  else if (c <? 32) || (c =? 127) then s "\x" ++ hex 2 c
  else if c <? 127 then [c]
  else if printable c then [c]
  else if c <? 256 then s "\x" ++ hex 2 c
  else if c <? 65536 then s "\u" ++ hex 4 c
  else s "\U" ++ hex 8 c.

Definition repr_quote (x : str) : char :=
  if existsb (N.eqb ch_apos) x && negb (existsb (N.eqb ch_quote) x) then ch_quote else ch_apos.
Definition repr_body (x : str) : str := flat_map (repr_char (repr_quote x)) x.
Definition repr_str (x : str) : str := [repr_quote x] ++ repr_body x ++ [repr_quote x].

(** ** gherkin_builder.py:32-50 [escape] *)

(** gherkin_builder.py:32 *)
Definition control_words : list str := [s "ELSE"; s "ELSE IF"; s "AND"].

(** gherkin_builder.py:36-37 [escape_whitespace] and :50: [re.sub] on runs of white space,
    every run joined with backslashes: a backslash goes before every white space
    character that follows a white space character *)
Fixpoint escape_spaces (prev_space : bool) (x : str) : str :=
  match x with
  | [] => []
  | c :: x' =>
      if is_space c
      then (if prev_space then [ch_bslash; c] else [c]) ++ escape_spaces true x'
      else c :: escape_spaces false x'
  end.

(** gherkin_builder.py:40-50 [escape]; [repr(item)[1:-1]] is [repr_body] *)
Definition escape (x : str) : str :=
  if str_mem x control_words then ch_bslash :: x
  else
    let y := repr_body x in
    let z := if contains [ch_eq] y then replace [ch_eq] [ch_bslash; ch_eq] y else y in
    escape_spaces false z.

(** ** repr of the argument dictionaries *)

(** repr of {"content": .., "mediaType": ..} *)
Definition repr_docstring (content : str) (media : option str) : str :=
  s "{'content': " ++ repr_str content ++
  (match media with Some m => s ", 'mediaType': " ++ repr_str m | None => [] end) ++ s "}".
(** repr of {"rows": [{"cells": [{"value": ..}, ..]}, ..]} *)
Definition repr_row (cells : list str) : str :=
  s "{'cells': [" ++ join (s ", ") (map (fun v => s "{'value': " ++ repr_str v ++ s "}") cells) ++ s "]}".
Definition repr_datatable (rows : list (list str)) : str :=
  s "{'rows': [" ++ join (s ", ") (map repr_row rows) ++ s "]}".

(** gherkin_builder.py:114-125: the arguments of a keyword call *)
Definition call_args (a : option parg) : list str :=
  match a with
  | None => []
  | Some (PDoc content media) => [s "&{{" ++ escape (repr_docstring content media) ++ s "}}"]
  | Some (PTable rows) => [s "&{{" ++ escape (repr_datatable rows) ++ s "}}"]
  end.
End Repr.

(** ** The document as nested dictionaries *)

(** Python values that occur in a document.  [JLoc]: a Location object; [JPath]: the Path
    stored under "uri" (neither a dict nor a list). *)
Inductive jval :=
| JNone
| JStr (x : str)
| JLoc (l : location)
| JPath
| JDict (kvs : list (str * jval))
| JList (l : list jval).

(** a dictionary built by [reject_nones] *)
Definition opt_kv (k : String.string) (o : option jval) : list (str * jval) :=
  match o with Some v => [(s k, v)] | None => [] end.
Arguments opt_kv k%string_scope o.
Definition jopt (o : option str) : option jval := option_map JStr o.
Definition jid (n : nat) : jval := JStr (str_of_nat n).

(** the dictionaries of ast_builder.py in the order of their keys *)
Definition j_tag (t : tag) : jval :=
  JDict [(s "id", jid (tag_id t)); (s "location", JLoc (tag_loc t)); (s "name", JStr (tag_name t))].
Definition j_cell (c : cell) : jval :=
  JDict [(s "location", JLoc (cell_loc c)); (s "value", JStr (cell_value c))].
Definition j_row (r : row) : jval :=
  JDict [(s "id", jid (row_id r)); (s "location", JLoc (row_loc r));
         (s "cells", JList (map j_cell (row_cells r)))].
Definition j_doc (d : docstring) : jval :=
  JDict ([(s "location", JLoc (ds_loc d)); (s "content", JStr (ds_content d))] ++
         opt_kv "delimiter" (jopt (ds_delimiter d)) ++ opt_kv "mediaType" (jopt (ds_media d))).
Definition j_table (t : datatable) : jval :=
  JDict [(s "location", JLoc (dt_loc t)); (s "rows", JList (map j_row (dt_rows t)))].
Definition j_step (st : step) : jval :=
  JDict ([(s "id", jid (st_id st)); (s "location", JLoc (st_loc st))] ++
         opt_kv "keyword" (jopt (st_keyword st)) ++
         opt_kv "keywordType" (option_map (fun k => JStr (ktype_name k)) (st_ktype st)) ++
         opt_kv "text" (jopt (st_text st)) ++
         match st_arg st with
         | ANone => []
         | ATable t => [(s "dataTable", j_table t)]
         | ADoc d => [(s "docString", j_doc d)]
         end).
Definition j_background (b : background) : jval :=
  JDict ([(s "id", jid (bg_id b)); (s "location", JLoc (bg_loc b))] ++
         opt_kv "keyword" (jopt (bg_keyword b)) ++ opt_kv "name" (jopt (bg_name b)) ++
         [(s "description", JStr (bg_desc b)); (s "steps", JList (map j_step (bg_steps b)))]).
Definition j_examples (e : examples) : jval :=
  JDict ([(s "id", jid (ex_id e)); (s "tags", JList (map j_tag (ex_tags e))); (s "location", JLoc (ex_loc e))] ++
         opt_kv "keyword" (jopt (ex_keyword e)) ++ opt_kv "name" (jopt (ex_name e)) ++
         [(s "description", JStr (ex_desc e))] ++
         opt_kv "tableHeader" (option_map j_row (ex_header e)) ++
         [(s "tableBody", JList (map j_row (ex_body e)))]).
Definition j_scenario (x : scenario) : jval :=
  JDict ([(s "id", jid (sc_id x)); (s "tags", JList (map j_tag (sc_tags x))); (s "location", JLoc (sc_loc x))] ++
         opt_kv "keyword" (jopt (sc_keyword x)) ++ opt_kv "name" (jopt (sc_name x)) ++
         [(s "description", JStr (sc_desc x)); (s "steps", JList (map j_step (sc_steps x)));
          (s "examples", JList (map j_examples (sc_examples x)))]).
Definition j_bg_child (b : option background) : list jval :=
  match b with Some b => [JDict [(s "background", j_background b)]] | None => [] end.
Definition j_sc_child (x : scenario) : jval := JDict [(s "scenario", j_scenario x)].
Definition j_rule (r : rule_ast) : jval :=
  JDict ([(s "id", jid (ru_id r)); (s "tags", JList (map j_tag (ru_tags r))); (s "location", JLoc (ru_loc r))] ++
         opt_kv "keyword" (jopt (ru_keyword r)) ++ opt_kv "name" (jopt (ru_name r)) ++
         [(s "description", JStr (ru_desc r));
          (s "children", JList (j_bg_child (ru_background r) ++ map j_sc_child (ru_scenarios r)))]).
Definition j_feature (f : feature) : jval :=
  JDict ([(s "tags", JList (map j_tag (fe_tags f))); (s "location", JLoc (fe_loc f))] ++
         opt_kv "language" (jopt (fe_language f)) ++ opt_kv "keyword" (jopt (fe_keyword f)) ++
         opt_kv "name" (jopt (fe_name f)) ++
         [(s "description", JStr (fe_desc f));
          (s "children", JList (j_bg_child (fe_background f) ++ map j_sc_child (fe_scenarios f) ++
                                map (fun r => JDict [(s "rule", j_rule r)]) (fe_rules f)))]).
Definition j_comment (c : comment) : jval :=
  JDict [(s "location", JLoc (cm_loc c)); (s "text", match cm_text c with Some x => JStr x | None => JNone end)].
(** ast_builder.py:268-271 and gherkin_builder.py:89 *)
Definition j_gdoc (d : gdoc) : jval :=
  JDict (opt_kv "feature" (option_map j_feature (gd_feature d)) ++
         [(s "comments", JList (map j_comment (gd_comments d))); (s "uri", JPath)]).

(** dict access *)
Fixpoint jget (k : str) (kvs : list (str * jval)) : option jval :=
  match kvs with
  | [] => None
  | (k', v) :: kvs' => if str_eqb k k' then Some v else jget k kvs'
  end.

(** gherkin_builder.py:53-71 [find_ast_node_id]: the node found and its parent *)
Fixpoint find_ast_node_id (node : jval) (id : str) (parent : jval) {struct node} : option (jval * jval) :=
  match node with
  | JDict kvs =>
      match jget (s "id") kvs with
      | Some (JStr x) =>
          if str_eqb x id then Some (node, parent)
          else (fix go (l : list (str * jval)) : option (jval * jval) :=
                  match l with
                  | [] => None
                  | (_, v) :: l' => match find_ast_node_id v id node with
                                    | Some r => Some r
                                    | None => go l'
                                    end
                  end) kvs
      | _ => (fix go (l : list (str * jval)) : option (jval * jval) :=
                match l with
                | [] => None
                | (_, v) :: l' => match find_ast_node_id v id node with
                                  | Some r => Some r
                                  | None => go l'
                                  end
                end) kvs
      end
  | JList vs =>
      (fix go (l : list jval) : option (jval * jval) :=
         match l with
         | [] => None
         | v :: l' => match find_ast_node_id v id parent with
                      | Some r => Some r
                      | None => go l'
                      end
         end) vs
  | _ => None
  end.

(** ** Robot Framework objects, as the arguments given to them *)

Record rcall := mkCall {          (* KeywordCall.from_params(name, args=args), :126-142 *)
  rc_name : str; rc_args : list str;
  rc_line : nat; rc_col : nat }.  (* lineno and col_offset of the keyword token *)
Record rtest := mkTest {          (* TestCase, :155-161 *)
  rt_name : str; rt_doc : option str; rt_tags : list str; rt_calls : list rcall;
  rt_line : nat; rt_col : nat }.
Record rsuite := mkSuite {        (* the settings, :166-182, and the tests *)
  rs_doc : option str;            (* Documentation *)
  rs_library : str;               (* LibraryImport *)
  rs_resources : list str;        (* ResourceImport, one per element *)
  rs_metadata_tags : option str;  (* Metadata "Tags" *)
  rs_test_tags : list str;        (* TestTags; [] when there is none *)
  rs_tests : list rtest }.
(* the text of an Error token: the message of a parser error, or the name of a Python exception *)
Inductive rerr_text := TMsg (m : str) | TExn (e : exn).
Record rerror := mkError { re_line : nat; re_col : Z; re_text : rerr_text }.   (* Error tokens, :204-218 *)
Inductive rfile := RSuite (x : rsuite) | RErrors (l : list rerror).

(** node["x"] on a value that is a dictionary *)
Definition jitem (k : str) (v : jval) : result jval :=
  match v with
  | JDict kvs => match jget k kvs with Some x => Ok x | None => Err (EKeyError k) end
  | _ => Err ETypeError
  end.
Definition jstr (v : jval) : result str := match v with JStr x => Ok x | _ => Err ETypeError end.
Definition jlist (v : jval) : result (list jval) := match v with JList l => Ok l | _ => Err ETypeError end.
(** "location" in node, then location.line and location.column - 1 *)
Definition jlocation (v : jval) : result (nat * nat) :=
  match v with
  | JDict kvs =>
      match jget (s "location") kvs with
      | Some (JLoc l) => match l_col l with Some c => Ok (l_line l, c - 1)%nat | None => Err ETypeError end
      | _ => Ok (0, 0)%nat         (* tokens keep their default position *)
      end
  | _ => Ok (0, 0)%nat
  end.

Section Build.
Variable printable : char -> bool.

(** gherkin_builder.py:109-144: one step of a pickle; a step whose node is not found is skipped *)
Definition build_call (jdoc : jval) (st : pstep) : result (list rcall) :=
  match ps_nodes st with
  | [] => Err EIndexError
  | n :: _ =>
      match find_ast_node_id jdoc (str_of_nat n) JNone with
      | None => Ok []
      | Some (node, _) =>
          rbind (match ps_type st with
                 | Some KtUnknown => Ok []
                 | _ => rbind (jitem (s "keyword") node) jstr
                 end) (fun kw =>
            rbind (jlocation node) (fun lc =>
              Ok [mkCall (kw ++ ps_text st) (call_args printable (ps_arg st)) (fst lc) (snd lc)]))
      end
  end.

(** gherkin_builder.py:148-153: the suffix of the name of an examples row *)
Fixpoint name_suffix (header cells : list jval) : result str :=
  match cells with
  | [] => Ok []
  | c :: cells' =>
      match header with
      | [] => Err EIndexError
      | h :: header' =>
          rbind (rbind (jitem (s "value") h) jstr) (fun hv =>
            rbind (rbind (jitem (s "value") c) jstr) (fun cv =>
              rbind (name_suffix header' cells') (fun rest =>
                Ok (s " " ++ hv ++ s " = " ++ cv ++ rest))))
      end
  end.
Definition test_name (jdoc : jval) (p : pickle) : result str :=
  match pk_nodes p with
  | _ :: r :: _ =>
      match find_ast_node_id jdoc (str_of_nat r) JNone with
      | Some (JDict kvs, JDict pkvs) =>
          match jget (s "cells") kvs with
          | None => Ok (pk_name p)
          | Some cells =>
              rbind (rbind (jitem (s "keyword") (JDict pkvs)) jstr) (fun kw =>
                if str_eqb kw (s "Examples") then
                  rbind (jlist cells) (fun cs =>
                    match cs with
                    | [] => Ok (pk_name p)
                    | _ =>
                        rbind (rbind (jitem (s "tableHeader") (JDict pkvs)) (fun h =>
                               rbind (jitem (s "cells") h) jlist)) (fun hs =>
                          rbind (name_suffix hs cs) (fun suffix => Ok (pk_name p ++ suffix)))
                    end)
                else Ok (pk_name p))
          end
      | _ => Ok (pk_name p)
      end
  | _ => Ok (pk_name p)
  end.

(** [r["name"][1:]] *)
Definition tag_text (name : str) : str := tl name.

(** gherkin_builder.py:96-162: one pickle *)
Definition build_test (jdoc : jval) (feature_tags : list tag) (p : pickle) : result rtest :=
  match pk_nodes p with
  | [] => Err EIndexError
  | n :: _ =>
      let found := find_ast_node_id jdoc (str_of_nat n) JNone in
      let desc := match found with
                  | Some (JDict kvs, _) =>
                      match jget (s "description") kvs with Some (JStr x) => x | _ => [] end
                  | _ => []
                  end in
      let doc := match desc with [] => None | _ => Some (strip desc) end in             (* :100-102 *)
      let tags := map (fun t => tag_text (pt_name t))
                    (filter (fun t => negb (existsb (fun f => Nat.eqb (tag_id f) (pt_node t)) feature_tags))
                            (pk_tags p)) in                                             (* :104 *)
      rbind (map_result (build_call jdoc) (pk_steps p)) (fun calls =>
        rbind (test_name jdoc p) (fun name =>
          rbind (match found with Some (node, _) => jlocation node | None => Ok (0, 0)%nat end) (fun lc =>
            Ok (mkTest name doc tags (concat calls) (fst lc) (snd lc)))))
  end.

(** pathlib: [stem] and [suffix] of a file name *)
Definition rfind_dot (name : str) : option nat :=
  (fix go (x : str) (i : nat) (last : option nat) : option nat :=
     match x with
     | [] => last
     | c :: x' => go x' (S i) (if c =? 46 then Some i else last)
     end) name O None.
Definition path_suffix (name : str) : str :=
  match rfind_dot name with
  | Some (S i) => if Nat.ltb (S i) (length name - 1) then skipn (S i) name else []
  | _ => []
  end.
Definition path_stem (name : str) : str :=
  match rfind_dot name with
  | Some (S i) => if Nat.ltb (S i) (length name - 1) then firstn (S i) name else name
  | _ => name
  end.

(** [sorted(.., key=str)]: code point order, stable *)
Fixpoint str_leb (a b : str) : bool :=
  match a, b with
  | [], _ => true
  | _ :: _, [] => false
  | x :: a', y :: b' => if x <? y then true else if y <? x then false else str_leb a' b'
  end.
Fixpoint insert_sorted (x : str) (l : list str) : list str :=
  match l with
  | [] => [x]
  | y :: l' => if str_leb x y then x :: l else y :: insert_sorted x l'
  end.
Definition sorted (l : list str) : list str := fold_right insert_sorted [] l.

(** gherkin_builder.py:164 and :170-173; [dir] is the content of the directory of the file *)
Definition resources (dir : option (list (str * entry))) : result (list str) :=
  rbind (iter_files (Some [s "**/*.resource"]) None dir) (fun fs =>
    Ok (sorted (map path_str
          (filter (fun p => let stem := path_stem (last p []) in
                            negb (startswith (s "_") stem || startswith (s ".") stem)) fs)))).

(** gherkin_builder.py:76-200, the body of the [try].  [name]: the name of the file, which
    decides about the matcher (:84-87); reading and decoding the file is not modelled. *)
Definition build_ok (name content : str) (dir : option (list (str * entry))) : result (rsuite * option str) :=
  let md := str_eqb (path_suffix name) (s ".md") in
  rbind (parse_with false md (s "en") content) (fun doc =>
    rbind (compile doc 0) (fun q =>
      rbind (get_key (s "feature") (gd_feature doc)) (fun f =>                          (* :92 *)
        let jdoc := j_gdoc doc in
        rbind (map_result (build_test jdoc (fe_tags f)) (fst q)) (fun tests =>
          rbind (resources dir) (fun res =>
            let doc_text := strip (fe_desc f) in
            let names := map (fun t => tag_text (tag_name t)) (fe_tags f) in
            rbind (get_key (s "name") (fe_name f)) (fun fname =>
              Ok (mkSuite (match doc_text with [] => None | _ => Some doc_text end)
                    (s "GherkinParser.Library") res
                    (match fe_tags f with [] => None | _ => Some (join (s ", ") names) end)
                    names tests,
                  Some fname))))))).

(** gherkin_builder.py:207-214: [e.location.column - 1] raises TypeError when the column is None *)
Definition error_of (e : perr) : result rerror :=
  match l_col (pe_loc e) with
  | Some c => Ok (mkError (l_line (pe_loc e)) (Z.of_nat c - 1) (TMsg (pe_msg e)))
  | None => Err ETypeError
  end.

(** gherkin_builder.py:74-232 [build_gherkin_model] *)
Definition build_gherkin_model (name content : str) (dir : option (list (str * entry)))
  : result (rfile * option str) :=
  match build_ok name content dir with
  | Ok (f, n) => Ok (RSuite f, n)
  | Err (EComposite es) => rbind (map_result error_of es) (fun l => Ok (RErrors l, None))
  | Err e => Ok (RErrors [mkError 1 0 (TExn e)], None)
  end.
End Build.

(** gherkin_builder.py:234-237 [collect_gherkin_suites]: the files that are built, in the order in which the
    directories list them; building them ([build_gherkin_model], after reading) is above *)
Definition feature_files (dir : option (list (str * entry))) : result (list (list str)) :=
  iter_files (Some [s "**/*.{feature,feature.md}"]) None dir.
