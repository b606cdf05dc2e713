(** * Token matchers

    Model of packages/gurke/src/gurke/dialect.py, token_matcher.py and
    token_matcher_markdown.py. *)
From Verif Require Import PyStr Types Regex Line DialectData.

(** dialect.py:15-17 [Dialect.for_name] *)
Definition for_name (name : str) : option dialect :=
  match find (fun p => str_eqb (fst p) name) DIALECTS with
  | Some (_, d) => Some d
  | None => None
  end.

(** The mutable attributes of a matcher object.  token_matcher.py:21-30,
    token_matcher_markdown.py:17-27.  [ms_md] tells the class of the object
    (TokenMatcher or GherkinInMarkdownTokenMatcher); [ms_feature] is
    [matched_feature_line], which only the Markdown matcher has.  The attribute
    [keyword_types] is a function of [dialect], see [keyword_types] below. *)
Record mstate := mkMs {
  ms_md : bool;
  ms_default : str;
  ms_name : str;
  ms_dialect : dialect;
  ms_indent : nat;
  ms_sep : option str;
  ms_feature : bool }.

(** token_matcher.py:188-196 (= token_matcher_markdown.py:259-267): the list
    stored in the defaultdict [keyword_types] under key [k]. *)
Definition occurrences (k : str) (l : list str) (t : ktype) : list ktype :=
  map (fun _ => t) (filter (str_eqb k) l).
Definition keyword_types (d : dialect) (k : str) : list ktype :=
  occurrences k (d_given d) KtContext ++ occurrences k (d_when d) KtAction ++
  occurrences k (d_then d) KtOutcome ++ occurrences k (d_and d ++ d_but d) KtConjunction.

(** errors.py:11-16 [ParserException.__init__]: the message is prefixed with the location *)
Definition mk_perr (k : pkind) (msg : str) (loc : location) : perr :=
  mkPErr k
    (s "(" ++ str_of_nat (l_line loc) ++ s ":" ++
     str_of_nat (match l_col loc with Some c => c | None => 0 end) ++ s "): " ++ msg) loc.

(** errors.py:19-21 [NoSuchLanguageException] *)
Definition no_such_language (name : str) (loc : location) : exn :=
  EParser (mk_perr KNoSuchLanguage (s "Language not supported: " ++ name) loc).

(** token_matcher.py:181-196 / token_matcher_markdown.py:252-267 [_change_dialect] *)
Definition change_dialect (ms : mstate) (name : str) (loc : location) : result mstate :=
  match for_name name with
  | None => Err (no_such_language name loc)
  | Some d => Ok (mkMs (ms_md ms) (ms_default ms) name d (ms_indent ms) (ms_sep ms) (ms_feature ms))
  end.

(** token_matcher.py:26-30 / token_matcher_markdown.py:22-27 [reset] *)
Definition ms_reset (ms : mstate) : result mstate :=
  rbind (if str_eqb (ms_name ms) (ms_default ms) then Ok ms
         else change_dialect ms (ms_default ms) (mkLoc 0 (Some 0)))
        (fun ms => Ok (mkMs (ms_md ms) (ms_default ms) (ms_name ms) (ms_dialect ms) 0 None false)).

(** token_matcher.py:21-24 / token_matcher_markdown.py:17-20 [__init__] *)
Definition new_matcher (md : bool) (name : str) : result mstate :=
  match for_name name with
  | None => Err (no_such_language name (mkLoc 0 (Some 0)))
  | Some d => ms_reset (mkMs md name name d 0 None false)
  end.

(** What a [match_X] method returns or raises, with the matcher and the token as it leaves them. *)
Definition mret := (result bool * mstate * token)%type.

(** token_matcher.py:156-179 / token_matcher_markdown.py:227-250 [_set_token_matched] *)
Definition set_matched (ms : mstate) (t : token) (ty : option tok) (text keyword : option str)
  (kt : option ktype) (indent : option nat) (items : list mitem) : token :=
  let ind := match indent with
             | Some n => n
             | None => if g_bool (t_line t) then g_indent (t_line t) else 0
             end in
  mkTok (t_line t) (t_loc_line t) (Some (ind + 1)) ty
        (match text with Some x => Some (rstrip_crlf x) | None => None end)
        items keyword kt (Z.of_nat ind) (Some (ms_name ms)).

(** ** The classic matcher, token_matcher.py *)

(** token_matcher.py:148-154 [_match_title_line] *)
Definition match_title (ms : mstate) (t : token) (ty : tok) (keywords : list str) : mret :=
  match find (startswith_title_keyword (t_line t)) keywords with
  | Some k =>
      let title := get_rest_trimmed (t_line t) (length k + 1) in
      (Ok true, ms, set_matched ms t (Some ty) (Some title) (Some k) None None [])
  | None => (Ok false, ms, t)
  end.

(** [a or b] for two matcher calls on the same token *)
Definition m_or (r : mret) (k : mstate -> token -> mret) : mret :=
  match r with
  | (Ok false, ms, t) => k ms t
  | _ => r
  end.

(** token_matcher.py:49-54 [match_TableRow] *)
Definition c_match_TableRow (ms : mstate) (t : token) : mret :=
  if negb (g_startswith (t_line t) [ch_pipe]) then (Ok false, ms, t)
  else match table_cells (t_line t) with
       | Ok cells => (Ok true, ms, set_matched ms t (Some TkTableRow) None None None None cells)
       | Err e => (Err e, ms, t)
       end.

(** the keyword list of token_matcher.py:57-63 and token_matcher_markdown.py:83-89 *)
Definition step_keywords (d : dialect) : list str :=
  d_given d ++ d_when d ++ d_then d ++ d_and d ++ d_but d.

(** token_matcher.py:66-70 *)
Definition classic_ktype (d : dialect) (k : str) : ktype :=
  match keyword_types d k with [kt] => kt | _ => KtUnknown end.

(** token_matcher.py:56-74 [match_StepLine] *)
Definition c_match_StepLine (ms : mstate) (t : token) : mret :=
  match find (g_startswith (t_line t)) (step_keywords (ms_dialect ms)) with
  | Some k =>
      let title := get_rest_trimmed (t_line t) (length k) in
      (Ok true, ms,
       set_matched ms t (Some TkStepLine) (Some title) (Some k)
         (Some (classic_ktype (ms_dialect ms) k)) None [])
  | None => (Ok false, ms, t)
  end.

(** token_matcher.py:76-82 [match_Comment] *)
Definition c_match_Comment (ms : mstate) (t : token) : mret :=
  if negb (g_startswith (t_line t) [ch_hash]) then (Ok false, ms, t)
  else (Ok true, ms, set_matched ms t (Some TkComment) (Some (g_text (t_line t))) None None (Some 0) []).

(** token_matcher.py:84-89 [match_Empty] *)
Definition c_match_Empty (ms : mstate) (t : token) : mret :=
  if negb (g_is_empty (t_line t)) then (Ok false, ms, t)
  else (Ok true, ms, set_matched ms t (Some TkEmpty) None None None (Some 0) []).

(** token_matcher.py:17 [LANGUAGE_RE] *)
Definition language_name_set : re :=
  RSet false [CRange 97 122; CRange 65 90; CChar 45; CChar 95]%N.
Definition re_spaces : re := RStar (RSet false [CSpace]).
Definition LANGUAGE_RE : re :=
  RSeq RBol (RSeq re_spaces (RSeq (RChar ch_hash) (RSeq re_spaces (RSeq (RLit (s "language"))
    (RSeq re_spaces (RSeq (RChar ch_colon) (RSeq re_spaces
      (RSeq (RGrp 1 (RPlus language_name_set)) (RSeq re_spaces REol))))))))).

(** token_matcher.py:91-99 [match_Language] *)
Definition c_match_Language (ms : mstate) (t : token) : mret :=
  match re_match LANGUAGE_RE (get_line_text (t_line t) (-1)) with
  | None => (Ok false, ms, t)
  | Some st =>
      let name := match group 1 st with Some x => x | None => [] end in
      let t' := set_matched ms t (Some TkLanguage) (Some name) None None None [] in
      match change_dialect ms name (t_location t') with
      | Ok ms' => (Ok true, ms', t')
      | Err e => (Err e, ms, t')
      end
  end.

(** token_matcher.py:101-106 [match_TagLine] *)
Definition c_match_TagLine (ms : mstate) (t : token) : mret :=
  if negb (g_startswith (t_line t) [ch_at]) then (Ok false, ms, t)
  else match g_tags (t_line t) with
       | Ok tags => (Ok true, ms, set_matched ms t (Some TkTagLine) None None None None tags)
       | Err e => (Err e, ms, t)
       end.

Definition sep_quotes : str := s """""""".          (* three double quotes *)
Definition sep_ticks : str := s "```".
Definition sep_ticks4 : str := s "````".

(** token_matcher.py:118-133 / token_matcher_markdown.py:159-174
    [_match_DocStringSeparator]; [no_type] is the value of [content_type] when
    closing: None in the classic matcher, "" in the Markdown matcher. *)
Definition match_separator (no_type : option str) (sep : str) (is_open : bool)
  (ms : mstate) (t : token) : mret :=
  if negb (g_startswith (t_line t) sep) then (Ok false, ms, t)
  else
    let content_type := if is_open then Some (get_rest_trimmed (t_line t) (length sep)) else no_type in
    let ms' := mkMs (ms_md ms) (ms_default ms) (ms_name ms) (ms_dialect ms)
                 (if is_open then g_indent (t_line t) else 0)
                 (if is_open then Some sep else None) (ms_feature ms) in
    (Ok true, ms', set_matched ms' t (Some TkDocStringSeparator) content_type (Some sep) None None []).

(** token_matcher.py:108-116 [match_DocStringSeparator] *)
Definition c_match_DocStringSeparator (ms : mstate) (t : token) : mret :=
  match ms_sep ms with
  | None => m_or (match_separator None sep_quotes true ms t) (match_separator None sep_ticks true)
  | Some sep => match_separator None sep false ms t
  end.

(** token_matcher.py:198-205 / token_matcher_markdown.py:269-274 [_unescaped_docstring] *)
Definition esc_quotes : str := s "\""\""\""".       (* backslash, quote, three times *)
Definition esc_ticks : str := s "\`\`\`".
Definition unescaped_docstring (ms : mstate) (text : str) : str :=
  match ms_sep ms with
  | Some sep =>
      if str_eqb sep sep_quotes then replace esc_quotes sep_quotes text
      else if str_eqb sep sep_ticks then replace esc_ticks sep_ticks text
      else text
  | None => text
  end.

(** token_matcher.py:135-139 / token_matcher_markdown.py:176-180 [match_Other] *)
Definition match_Other (ms : mstate) (t : token) : mret :=
  let text := get_line_text (t_line t) (Z.of_nat (ms_indent ms)) in
  (Ok true, ms,
   set_matched ms t (Some TkOther) (Some (unescaped_docstring ms text)) None None (Some 0) []).

(** token_matcher.py:141-146 / token_matcher_markdown.py:182-187 [match_EOF] *)
Definition match_EOF (ms : mstate) (t : token) : mret :=
  if negb (t_eof t) then (Ok false, ms, t)
  else (Ok true, ms, set_matched ms t (Some TkEOF) None None None None []).

(** token_matcher.py:32-47 and the methods above *)
Definition classic_match (k : tok) (ms : mstate) (t : token) : mret :=
  let d := ms_dialect ms in
  match k with
  | TkEOF => match_EOF ms t
  | TkEmpty => c_match_Empty ms t
  | TkComment => c_match_Comment ms t
  | TkTagLine => c_match_TagLine ms t
  | TkFeatureLine => match_title ms t TkFeatureLine (d_feature d)
  | TkRuleLine => match_title ms t TkRuleLine (d_rule d)
  | TkBackgroundLine => match_title ms t TkBackgroundLine (d_background d)
  | TkScenarioLine =>
      m_or (match_title ms t TkScenarioLine (d_scenario d))
           (fun ms t => match_title ms t TkScenarioLine (d_scenarioOutline d))
  | TkExamplesLine => match_title ms t TkExamplesLine (d_examples d)
  | TkStepLine => c_match_StepLine ms t
  | TkDocStringSeparator => c_match_DocStringSeparator ms t
  | TkTableRow => c_match_TableRow ms t
  | TkLanguage => c_match_Language ms t
  | TkOther => match_Other ms t
  end.

(** ** The Markdown matcher, token_matcher_markdown.py *)

(** token_matcher_markdown.py:10-11 *)
Definition md_bullet : re :=        (* bullet: white space, one of star/plus/minus, white space; all of it is group 1 *)
  RSeq RBol (RGrp 1 (RSeq re_spaces (RSeq (RSet false [CChar 42; CChar 43; CChar 45]%N) re_spaces))).
Definition md_header : re :=        (* one to six hashes (greedily) and a white space character; group 1 *)
  let h n := RLit (repeat ch_hash n) in
  RSeq RBol (RGrp 1 (RSeq (RAlts (map h [6; 5; 4; 3; 2; 1])) (RSet false [CSpace]))).

(** token_matcher_markdown.py:189-211 [_match_title_line].  The pattern
    prefix, (kw1|kw2|..), suffix, dot-star with every keyword passed through re.escape. *)
Definition md_title_re (prefix : re) (keywords : list str) (suffix : str) : re :=
  RSeq prefix (RSeq (RGrp 2 (RAlts (map RLit keywords)))
    (RSeq (RLit suffix) (RGrp 3 (RStar RDot)))).
Definition md_match_title (prefix : re) (keywords : list str) (suffix : str) (ty : tok)
  (ms : mstate) (t : token) : mret :=
  match re_search (md_title_re prefix keywords suffix) (get_line_text (t_line t) (-1)) with
  | None => (Ok false, ms, t)
  | Some (_, st) =>
      let g n := match group n st with Some x => x | None => [] end in
      let kt := match keyword_types (ms_dialect ms) (g 2) with [] => None | kt :: _ => Some kt end in
      (Ok true, ms,
       set_matched ms t (Some ty) (Some (strip (g 3))) (Some (g 2)) kt
         (Some (g_indent (t_line t) + length (g 1))) [])
  end.

Definition ms_set_feature (ms : mstate) : mstate :=
  mkMs (ms_md ms) (ms_default ms) (ms_name ms) (ms_dialect ms) (ms_indent ms) (ms_sep ms) true.

(** token_matcher_markdown.py:29-44 [match_FeatureLine] *)
Definition md_match_FeatureLine (ms : mstate) (t : token) : mret :=
  if ms_feature ms then (Ok false, ms, set_matched ms t None None None None None [])
  else
    match md_match_title md_header (d_feature (ms_dialect ms)) [ch_colon] TkFeatureLine ms t with
    | (Ok false, ms1, t1) =>
        (Ok true, ms_set_feature ms1,
         set_matched ms1 t1 (Some TkFeatureLine) (Some (get_line_text (t_line t1) (-1))) None None None [])
    | (r, ms1, t1) => (r, ms_set_feature ms1, t1)
    end.

(** token_matcher_markdown.py:67: ^\s?\s?\s?\s?\s?\| *)
Definition md_table_re : re :=
  let sp := ROpt (RSet false [CSpace]) in
  RSeq RBol (RSeq sp (RSeq sp (RSeq sp (RSeq sp (RSeq sp (RChar ch_pipe)))))).
(** token_matcher_markdown.py:79: ^:?-+:?$ *)
Definition md_separator_re : re :=
  RSeq RBol (RSeq (ROpt (RChar ch_colon)) (RSeq (RPlus (RChar 45%N)) (RSeq (ROpt (RChar ch_colon)) REol))).

(** token_matcher_markdown.py:77-80 [_is_gfm_table_separator] *)
Definition is_gfm_separator (cells : list mitem) : bool :=
  existsb (fun i => match re_match md_separator_re (i_text i) with Some _ => true | None => false end) cells.

(** token_matcher_markdown.py:64-75 [match_TableRow] *)
Definition md_match_TableRow (ms : mstate) (t : token) : mret :=
  match re_match md_table_re (get_line_text (t_line t) 0) with
  | None => (Ok false, ms, t)
  | Some _ =>
      match table_cells (t_line t) with
      | Err e => (Err e, ms, t)
      | Ok cells =>
          if is_gfm_separator cells then (Ok false, ms, t)
          else (Ok true, ms, set_matched ms t (Some TkTableRow) None (Some [ch_pipe]) None None cells)
      end
  end.

(** token_matcher_markdown.py:92-99 [match_Comment]: the token is marked even when the result is False *)
Definition md_match_Comment (ms : mstate) (t : token) : mret :=
  let t' := set_matched ms t (Some TkComment) None None None None [] in
  if g_startswith (t_line t) [ch_pipe] then
    match table_cells (t_line t) with
    | Err e => (Err e, ms, t)
    | Ok cells => (Ok (is_gfm_separator cells), ms, t')
    end
  else (Ok false, ms, t').

(** token_matcher_markdown.py:129-132 [match_Language]; a Token object is always true *)
Definition md_match_Language (ms : mstate) (t : token) : mret := (Ok false, ms, t).

(** token_matcher_markdown.py:136: an at-sign and non-backticks between backticks; finditer: all non-overlapping matches from the left.
    [pos] is the position in the line; [skip] counts characters inside the last match. *)
Definition md_tag_re : re :=
  RSeq (RChar ch_btick)
    (RSeq (RGrp 1 (RSeq (RChar ch_at) (RPlus (RSet true [CChar ch_btick])))) (RChar ch_btick)).
Fixpoint md_tags_go (x : str) (pos skip indent : nat) : list mitem :=
  match x with
  | [] => []
  | _ :: x' =>
      match skip with
      | S k => md_tags_go x' (S pos) k indent
      | O =>
          match exec md_tag_re (mkR None x []) with
          | st :: _ =>
              mkItem (indent + pos + 2) (match group 1 st with Some v => v | None => [] end)
              :: md_tags_go x' (S pos) (length x - length (r_rest st) - 1) indent
          | [] => md_tags_go x' (S pos) 0 indent
          end
      end
  end.

(** token_matcher_markdown.py:134-145 [match_TagLine] *)
Definition md_match_TagLine (ms : mstate) (t : token) : mret :=
  match md_tags_go (get_line_text (t_line t) (-1)) 0 0 (g_indent (t_line t)) with
  | [] => (Ok false, ms, t)
  | tags => (Ok true, ms, set_matched ms t (Some TkTagLine) None None None None tags)
  end.

(** token_matcher_markdown.py:147-157 [match_DocStringSeparator] *)
Definition md_match_DocStringSeparator (ms : mstate) (t : token) : mret :=
  match ms_sep ms with
  | None => m_or (m_or (match_separator (Some []) sep_quotes true ms t)
                       (match_separator (Some []) sep_ticks4 true))
                 (match_separator (Some []) sep_ticks true)
  | Some sep => match_separator (Some []) sep false ms t
  end.

Definition md_match_RuleLine (ms : mstate) (t : token) : mret :=       (* :46-47 *)
  md_match_title md_header (d_rule (ms_dialect ms)) [ch_colon] TkRuleLine ms t.
Definition md_match_ScenarioLine (ms : mstate) (t : token) : mret :=   (* :49-54 *)
  m_or (md_match_title md_header (d_scenario (ms_dialect ms)) [ch_colon] TkScenarioLine ms t)
       (fun ms t => md_match_title md_header (d_scenarioOutline (ms_dialect ms)) [ch_colon] TkScenarioLine ms t).
Definition md_match_BackgroundLine (ms : mstate) (t : token) : mret := (* :56-59 *)
  md_match_title md_header (d_background (ms_dialect ms)) [ch_colon] TkBackgroundLine ms t.
Definition md_match_ExamplesLine (ms : mstate) (t : token) : mret :=   (* :61-62 *)
  md_match_title md_header (d_examples (ms_dialect ms)) [ch_colon] TkExamplesLine ms t.
Definition md_match_StepLine (ms : mstate) (t : token) : mret :=       (* :82-90 *)
  md_match_title md_bullet (step_keywords (ms_dialect ms)) [] TkStepLine ms t.

(** token_matcher_markdown.py:101-125 [match_Empty]: all other matchers are tried
    (with their side effects) in the order of :106-117 *)
Definition md_match_Empty (ms : mstate) (t : token) : mret :=
  let any :=
    m_or (m_or (m_or (m_or (m_or (m_or (m_or (m_or (m_or (m_or (m_or
      (md_match_TagLine ms t)
      md_match_FeatureLine) md_match_ScenarioLine) md_match_BackgroundLine)
      md_match_ExamplesLine) md_match_RuleLine) md_match_TableRow) md_match_Comment)
      md_match_Language) md_match_DocStringSeparator) match_EOF) md_match_StepLine in
  match any with
  | (Err e, ms1, t1) => (Err e, ms1, t1)
  | (Ok matched, ms1, t1) =>
      if negb matched || g_is_empty (t_line t)
      then (Ok true, ms1, set_matched ms1 t1 (Some TkEmpty) None None None (Some 0) [])
      else (Ok false, ms1, t1)
  end.

Definition md_match (k : tok) (ms : mstate) (t : token) : mret :=
  match k with
  | TkEOF => match_EOF ms t
  | TkEmpty => md_match_Empty ms t
  | TkComment => md_match_Comment ms t
  | TkTagLine => md_match_TagLine ms t
  | TkFeatureLine => md_match_FeatureLine ms t
  | TkRuleLine => md_match_RuleLine ms t
  | TkBackgroundLine => md_match_BackgroundLine ms t
  | TkScenarioLine => md_match_ScenarioLine ms t
  | TkExamplesLine => md_match_ExamplesLine ms t
  | TkStepLine => md_match_StepLine ms t
  | TkDocStringSeparator => md_match_DocStringSeparator ms t
  | TkTableRow => md_match_TableRow ms t
  | TkLanguage => md_match_Language ms t
  | TkOther => match_Other ms t
  end.

(** the call [context.token_matcher.match_<k>(token)] *)
Definition do_match (k : tok) (ms : mstate) (t : token) : mret :=
  if ms_md ms then md_match k ms t else classic_match k ms t.
