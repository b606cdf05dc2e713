(** * The parser

    Model of packages/gurke/src/gurke/parser.py, token_scanner.py, errors.py and the
    stack handling of ast_builder.py.  The fifty functions [match_token_at_N] are
    the generated table ParserTable.v.

    Python objects that are mutated during one call of [Parser.parse] are collected
    in the record [ctx]; a function that may raise returns a [result] together with
    the [ctx] as it leaves it. *)
From Verif Require Import PyStr Types Regex Line DialectData Matcher Ast ParserTable.

(** The methods of a builder object that the parser calls (parser.py:95-111); [B] is
    the state of the object.  There are two builder classes: AstBuilder
    (ast_builder.py) and TokenFormatterBuilder (token_formatter_builder.py). *)
Record builder (B : Type) := mkBuilder {
  bd_start : rule -> B -> result unit * B;
  bd_end : rule -> B -> result unit * B;
  bd_build : token -> B -> result unit * B }.
Arguments bd_start {B} _ _ _.
Arguments bd_end {B} _ _ _.
Arguments bd_build {B} _ _ _.

Record ctx (B : Type) := mkCtx {
  c_lines : list str;         (* token_scanner.py: what readline() will still return *)
  c_lineno : nat;             (* token_scanner.py:16 line_number *)
  c_queue : list token;       (* parser.py:58 token_queue *)
  c_errors : list perr;       (* parser.py:59 errors *)
  c_ms : mstate;              (* parser.py:57 token_matcher *)
  c_b : B;                    (* parser.py:64 ast_builder *)
  c_stop : bool }.            (* parser.py:65 stop_at_first_error *)
Arguments mkCtx {B} _ _ _ _ _ _ _.
Arguments c_lines {B} _.
Arguments c_lineno {B} _.
Arguments c_queue {B} _.
Arguments c_errors {B} _.
Arguments c_ms {B} _.
Arguments c_b {B} _.
Arguments c_stop {B} _.

(** an error as it is after its line has been matched, see [add_error] *)
Definition settled (e : perr) : perr :=
  match pe_kind e with
  | KNoSuchLanguage => mkPErr KNoSuchLanguage (pe_msg e) (mkLoc (l_line (pe_loc e)) (Some 1))
  | _ => e
  end.

Section Parser.
Context {B : Type} (bd : builder B).
Implicit Types c : ctx B.

Definition set_queue c (q : list token) : ctx B :=
  mkCtx (c_lines c) (c_lineno c) q (c_errors c) (c_ms c) (c_b c) (c_stop c).
Definition set_errors c (e : list perr) : ctx B :=
  mkCtx (c_lines c) (c_lineno c) (c_queue c) e (c_ms c) (c_b c) (c_stop c).
Definition set_ms c (m : mstate) : ctx B :=
  mkCtx (c_lines c) (c_lineno c) (c_queue c) (c_errors c) m (c_b c) (c_stop c).
Definition set_b c (b : B) : ctx B :=
  mkCtx (c_lines c) (c_lineno c) (c_queue c) (c_errors c) (c_ms c) b (c_stop c).

(** parser.py:98-102 [add_error]; [str(e)] is the message.
    The location of a NoSuchLanguageException is the location object of the token itself
    (token_matcher.py:98).  When the error is only recorded, the same line goes on to be matched as a
    comment (parser.py:245-290; [nolang_comment] in PropLang.v), which sets the column of that object to 1
    (token_matcher.py:79-83, 178): [settled].  When the list is full, the exception is raised at once
    and the column stays. *)
Definition add_error (e : perr) c : result unit * ctx B :=
  if existsb (fun e' => str_eqb (pe_msg e) (pe_msg e')) (c_errors c) then (Ok tt, c)
  else
    let es := c_errors c ++ [e] in
    if Nat.ltb 10 (length es) then (Err (EComposite es), set_errors c es)
    else (Ok tt, set_errors c (c_errors c ++ [settled e])).

Fixpoint add_errors (es : list perr) c : result unit * ctx B :=
  match es with
  | [] => (Ok tt, c)
  | e :: es' =>
      match add_error e c with
      | (Ok _, c1) => add_errors es' c1
      | (Err x, c1) => (Err x, c1)
      end
  end.

(** parser.py:3831-3844 [handle_external_error], applied to the outcome of [action(argument)] *)
Definition handle_external {A} (default : A) (rc : result A * ctx B) : result A * ctx B :=
  let (r, c) := rc in
  if c_stop c then (r, c)                                                    (* :3834-3835 *)
  else
    match r with
    | Err (EComposite es) =>
        let (r', c') := add_errors es c in (rbind r' (fun _ => Ok default), c')
    | Err (EParser e) =>
        let (r', c') := add_error e c in (rbind r' (fun _ => Ok default), c')
    | _ => (r, c)
    end.

(** parser.py:95-96, 104-108 with :3828-3829 [handle_ast_error] *)
Definition do_act (t : token) (a : act) c : result unit * ctx B :=
  handle_external tt
    (let (r, b) := match a with
                   | AStart r => bd_start bd r (c_b c)
                   | AEnd r => bd_end bd r (c_b c)
                   | ABuild => bd_build bd t (c_b c)
                   end in
     (r, set_b c b)).
Fixpoint do_acts (t : token) (l : list act) c : result unit * ctx B :=
  match l with
  | [] => (Ok tt, c)
  | a :: l' =>
      match do_act t a c with
      | (Ok _, c1) => do_acts t l' c1
      | (Err e, c1) => (Err e, c1)
      end
  end.

(** parser.py:113-117 [read_token] and token_scanner.py:18-21 [read] *)
Definition read_token c : token * ctx B :=
  match c_queue c with
  | t :: q => (t, set_queue c q)
  | [] =>
      let n := S (c_lineno c) in
      (new_token (hd [] (c_lines c)) n,
       mkCtx (tl (c_lines c)) n [] (c_errors c) (c_ms c) (c_b c) (c_stop c))
  end.

(** parser.py:119-185, the fourteen methods [match_<k>] *)
Definition match_tok (k : tok) (t : token) c : result (bool * token) * ctx B :=
  if negb (tok_eqb k TkEOF) && t_eof t then (Ok (false, t), c)
  else
    let '(r, ms, t') := do_match k (c_ms c) t in
    handle_external (false, t') (rbind r (fun b => Ok (b, t')), set_ms c ms).

(** a chain [match_k1(..) or match_k2(..) or ..] *)
Fixpoint match_any (ks : list tok) (t : token) c : result (bool * token) * ctx B :=
  match ks with
  | [] => (Ok (false, t), c)
  | k :: ks' =>
      match match_tok k t c with
      | (Ok (false, t1), c1) => match_any ks' t1 c1
      | r => r
      end
  end.

(** parser.py:3774-3798 [lookahead_0] ([k] = ScenarioLine) and :3800-3824
    [lookahead_1] ([k] = ExamplesLine); [acc] is the local [queue].
    ([token.detach()], token.py:24-25, does nothing.) *)
Fixpoint lookahead_go (k : tok) (fuel : nat) (acc : list token) c : result bool * ctx B :=
  match fuel with
  | O => (Err EFuel, c)
  | S f =>
      let (t, c1) := read_token c in
      match match_tok k t c1 with
      | (Err e, c2) => (Err e, c2)
      | (Ok (true, t1), c2) => (Ok true, set_queue c2 (c_queue c2 ++ acc ++ [t1]))
      | (Ok (false, t1), c2) =>
          match match_any [TkEmpty; TkComment; TkTagLine] t1 c2 with
          | (Err e, c3) => (Err e, c3)
          | (Ok (true, t2), c3) => lookahead_go k f (acc ++ [t2]) c3
          | (Ok (false, t2), c3) => (Ok false, set_queue c3 (c_queue c3 ++ acc ++ [t2]))
          end
      end
  end.
Definition la_tok (l : lookahead) : tok := match l with LA0 => TkScenarioLine | LA1 => TkExamplesLine end.
Definition do_lookahead (l : option lookahead) c : result bool * ctx B :=
  match l with
  | None => (Ok true, c)
  | Some l => lookahead_go (la_tok l) (S (length (c_queue c) + length (c_lines c))) [] c
  end.

(** parser.py:245-3772: the [if] chain of one [match_token_at_N]; the result is
    the next state, or None when no branch was taken, and the token. *)
Fixpoint try_trans (trs : list trans) (t : token) c : result (option nat * token) * ctx B :=
  match trs with
  | [] => (Ok (None, t), c)
  | tr :: rest =>
      match match_tok (tr_tok tr) t c with
      | (Err e, c1) => (Err e, c1)
      | (Ok (false, t1), c1) => try_trans rest t1 c1
      | (Ok (true, t1), c1) =>
          match do_lookahead (tr_la tr) c1 with
          | (Err e, c2) => (Err e, c2)
          | (Ok false, c2) => try_trans rest t1 c2
          | (Ok true, c2) =>
              match do_acts t1 (tr_acts tr) c2 with
              | (Err e, c3) => (Err e, c3)
              | (Ok _, c3) => (Ok (Some (tr_next tr), t1), c3)
              end
          end
      end
  end.

(** errors.py:28-45 *)
Definition expected_text (l : list tok) : str :=
  join (s ", ") (map (fun k => ch_hash :: tok_name k) l).
Definition unexpected (t : token) (expected : list tok) : perr :=
  if t_eof t
  then mk_perr KUnexpectedEOF (s "unexpected end of file, expected: " ++ expected_text expected) (t_location t)
  else
    let loc := match t_loc_col t with
               | Some (S n) => t_location t
               | _ => mkLoc (t_loc_line t) (Some (g_indent (t_line t) + 1))
               end in
    mk_perr KUnexpectedToken
      (s "expected: " ++ expected_text expected ++ s ", got '" ++ strip (token_value t) ++ s "'") loc.

(** parser.py:187-243 [match_token] and the common error tail of [match_token_at_N], e.g. :270-289 *)
Definition match_token (state : nat) (t : token) c : result nat * ctx B :=
  match ptable state with
  | None => (Err ERuntimeError, c)                                  (* :243 *)
  | Some st =>
      match try_trans (st_trans st) t c with
      | (Err e, c1) => (Err e, c1)
      | (Ok (Some n, _), c1) => (Ok n, c1)
      | (Ok (None, t1), c1) =>
          let e := unexpected t1 (st_expected st) in
          if c_stop c1 then (Err (EParser e), c1)
          else match add_error e c1 with
               | (Ok _, c2) => (Ok (st_self st), c2)
               | (Err x, c2) => (Err x, c2)
               end
      end
  end.

(** parser.py:79-86, the loop of [parse] *)
Fixpoint parse_loop (fuel : nat) (state : nat) c : result unit * ctx B :=
  match fuel with
  | O => (Err EFuel, c)
  | S f =>
      let (t, c1) := read_token c in
      match match_token state t c1 with
      | (Err e, c2) => (Err e, c2)
      | (Ok state', c2) => if t_eof t then (Ok tt, c2) else parse_loop f state' c2
      end
  end.

(** the context at parser.py:76, after [ast_builder.reset()] has left [b] *)
Definition init_ctx (stop : bool) (b : B) (ms : mstate) (lines : list str) : ctx B :=
  mkCtx lines 0 [] [] ms b stop.

(** parser.py:67-93 [Parser.parse] up to [get_result].  [stop]: stop_at_first_error;
    [b]: the builder after its reset (:73); [ms]: the token matcher given, or a new
    one; [lines]: what the token scanner will return. *)
Definition parse_b (stop : bool) (b : B) (ms : mstate) (lines : list str) : result unit * ctx B :=
  match ms_reset ms with
  | Err e => (Err e, init_ctx stop b ms lines)
  | Ok ms0 =>
      match do_act (new_token [] 0) (AStart RGherkinDocument) (init_ctx stop b ms0 lines) with
      | (Err e, c1) => (Err e, c1)
      | (Ok _, c1) =>
          match parse_loop (S (length lines)) 0 c1 with
          | (Err e, c2) => (Err e, c2)
          | (Ok _, c2) =>
              match do_act (new_token [] 0) (AEnd RGherkinDocument) c2 with
              | (Err e, c3) => (Err e, c3)
              | (Ok _, c3) =>
                  match c_errors c3 with
                  | [] => (Ok tt, c3)
                  | es => (Err (EComposite es), c3)
                  end
              end
          end
      end
  end.
End Parser.

(** ** AstBuilder *)

(** ast_builder.py:14-24: the attributes of an AstBuilder and its id generator *)
Record astb := mkAb {
  ab_stack : list node;        (* ast_builder.py:22 stack, top first *)
  ab_comments : list comment;  (* ast_builder.py:23 comments *)
  ab_ids : nat }.              (* stream/id_generator.py:3 _id_counter *)

(** ast_builder.py:21-24 [reset]: the id generator goes on *)
Definition ab_reset (ids : nat) : astb := mkAb [mkNode RNone []] [] ids.

(** ast_builder.py:26-27 [start_rule] *)
Definition ab_start_rule (r : rule) (b : astb) : result unit * astb :=
  (Ok tt, mkAb (mkNode r [] :: ab_stack b) (ab_comments b) (ab_ids b)).

(** ast_builder.py:29-31 [end_rule]: the argument is not used; [pop] comes first,
    then [current_node] is evaluated, then [transform_node]. *)
Definition ab_end_rule (r : rule) (b : astb) : result unit * astb :=
  match ab_stack b with
  | [] => (Err EIndexError, b)
  | n :: [] => (Err EIndexError, mkAb [] (ab_comments b) (ab_ids b))
  | n :: p :: st =>
      match transform_node n (ab_comments b) (ab_ids b) with
      | (Err e, ids) => (Err e, mkAb (p :: st) (ab_comments b) ids)
      | (Ok i, ids) => (Ok tt, mkAb (n_add p (KRule (n_rule n)) i :: st) (ab_comments b) ids)
      end
  end.

(** ast_builder.py:33-37 [build] *)
Definition ab_build (t : token) (b : astb) : result unit * astb :=
  match t_mtype t with
  | Some TkComment =>
      (Ok tt, mkAb (ab_stack b) (ab_comments b ++ [mkComment (t_location t) (t_text t)]) (ab_ids b))
  | ty =>
      match ab_stack b with
      | [] => (Err EIndexError, b)
      | n :: st =>
          let k := match ty with Some k => KTok k | None => KNone end in
          (Ok tt, mkAb (n_add n k (ITok t) :: st) (ab_comments b) (ab_ids b))
      end
  end.

Definition ast_builder : builder astb := mkBuilder _ ab_start_rule ab_end_rule ab_build.

(** ast_builder.py:39-40 [get_result].  The Python function returns None when there
    is no document; the model then raises EUnmodelled (it is proved not to happen). *)
Definition ab_get_result (b : astb) : result gdoc :=
  match ab_stack b with
  | n :: _ => match get_single n (KRule RGherkinDocument) with
              | Some (IGdoc d) => Ok d
              | _ => Err EUnmodelled
              end
  | [] => Err EIndexError
  end.

(** parser.py:67-93 [Parser.parse] with an AstBuilder whose id generator stands at [ids] *)
Definition parse_lines (stop : bool) (ids : nat) (ms : mstate) (lines : list str)
  : result gdoc * ctx astb :=
  let (r, c) := parse_b ast_builder stop (ab_reset ids) ms lines in
  (rbind r (fun _ => ab_get_result (c_b c)), c).

(** [Parser().parse(text)] / [Parser().parse(text, token_matcher)]: new parser, new
    id generator, a new matcher with the given class and default language *)
Definition parse_with (stop md : bool) (lang : str) (text : str) : result gdoc :=
  rbind (new_matcher md lang) (fun ms => fst (parse_lines stop 0 ms (split_lines text))).
Definition parse (text : str) : result gdoc := parse_with false false (s "en") text.

(** ** TokenFormatterBuilder, token_formatter_builder.py *)

(** token_formatter_builder.py:4-18: the state is [_tokens] *)
Definition fmt_builder : builder (list token) :=
  mkBuilder _ (fun _ b => (Ok tt, b)) (fun _ b => (Ok tt, b)) (fun t b => (Ok tt, b ++ [t])).

(** [str] of a keyword type *)
Definition ktype_name (k : ktype) : str :=
  match k with
  | KtContext => s "Context" | KtAction => s "Action" | KtOutcome => s "Outcome"
  | KtConjunction => s "Conjunction" | KtUnknown => s "Unknown"
  end.

(** token_formatter_builder.py:23-47 [_format_token]; a token that was built always
    has a location column and a type ([str(None)] is "None") *)
Definition format_token (t : token) : str :=
  if t_eof t then s "EOF"
  else
    s "(" ++ str_of_nat (t_loc_line t) ++ s ":" ++
    (match t_loc_col t with Some n => str_of_nat n | None => s "None" end) ++ s ")" ++
    (match t_mtype t with Some k => tok_name k | None => [] end) ++ s ":" ++
    (match t_keyword t with
     | Some ((_ :: _) as k) =>
         s "(" ++ (match t_ktype t with Some kt => ktype_name kt | None => [] end) ++ s ")" ++ k
     | _ => []
     end) ++
    s "/" ++ (match t_text t with Some x => x | None => [] end) ++ s "/" ++
    join (s ",") (map (fun i => str_of_nat (i_column i) ++ s ":" ++ i_text i) (t_items t)).

(** token_formatter_builder.py:20-21 [get_result] *)
Definition format_tokens (l : list token) : str := join [ch_nl] (map format_token l).

(** [Parser(TokenFormatterBuilder()).parse(text, token_matcher)] *)
Definition parse_tokens (stop md : bool) (lang : str) (text : str) : result str :=
  rbind (new_matcher md lang) (fun ms =>
    let (r, c) := parse_b fmt_builder stop [] ms (split_lines text) in
    rbind r (fun _ => Ok (format_tokens (c_b c)))).

(** token_scanner.py:12-13: [io.open(path, "r", encoding="utf8")] reads with universal
    newlines: CR LF and a lone CR are translated to LF (decoding itself is not modelled). *)
Fixpoint universal_newlines (x : str) : str :=
  match x with
  | [] => []
  | c :: x' =>
      if (c =? ch_cr)%N then
        match x' with
        | d :: x'' => if (d =? ch_nl)%N then ch_nl :: universal_newlines x'' else ch_nl :: universal_newlines x'
        | [] => [ch_nl]
        end
      else c :: universal_newlines x'
  end.
