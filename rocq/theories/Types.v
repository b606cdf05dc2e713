(** * Data types shared by the model *)
From Verif Require Import PyStr.

(** Token types: the token rules of parser.py:12-25 (RULE_TYPE entries "_EOF" .. "_Other"). *)
Inductive tok :=
| TkEOF | TkEmpty | TkComment | TkTagLine | TkFeatureLine | TkRuleLine
| TkBackgroundLine | TkScenarioLine | TkExamplesLine | TkStepLine
| TkDocStringSeparator | TkTableRow | TkLanguage | TkOther.

(** Rule types: parser.py:11 and 26-43.  "StepArg" and "DescriptionHelper" never
    occur as arguments of start_rule/end_rule and are left out. *)
Inductive rule :=
| RNone | RGherkinDocument | RFeature | RFeatureHeader | RRule | RRuleHeader
| RBackground | RScenarioDefinition | RScenario | RExamplesDefinition
| RExamples | RExamplesTable | RStep | RDataTable | RDocString | RTags
| RDescription.

Definition tok_eqb (a b : tok) : bool :=
  match a, b with
  | TkEOF, TkEOF | TkEmpty, TkEmpty | TkComment, TkComment | TkTagLine, TkTagLine
  | TkFeatureLine, TkFeatureLine | TkRuleLine, TkRuleLine
  | TkBackgroundLine, TkBackgroundLine | TkScenarioLine, TkScenarioLine
  | TkExamplesLine, TkExamplesLine | TkStepLine, TkStepLine
  | TkDocStringSeparator, TkDocStringSeparator | TkTableRow, TkTableRow
  | TkLanguage, TkLanguage | TkOther, TkOther => true
  | _, _ => false
  end.

Definition rule_eqb (a b : rule) : bool :=
  match a, b with
  | RNone, RNone | RGherkinDocument, RGherkinDocument | RFeature, RFeature
  | RFeatureHeader, RFeatureHeader | RRule, RRule | RRuleHeader, RRuleHeader
  | RBackground, RBackground | RScenarioDefinition, RScenarioDefinition
  | RScenario, RScenario | RExamplesDefinition, RExamplesDefinition
  | RExamples, RExamples | RExamplesTable, RExamplesTable | RStep, RStep
  | RDataTable, RDataTable | RDocString, RDocString | RTags, RTags
  | RDescription, RDescription => true
  | _, _ => false
  end.

(** the names used in error messages: the strings of [expected_tokens], e.g.
    parser.py:271-278, without the leading hash (added in [expected_text], Parser.v) *)
Definition tok_name (t : tok) : str :=
  match t with
  | TkEOF => s "EOF" | TkEmpty => s "Empty" | TkComment => s "Comment"
  | TkTagLine => s "TagLine" | TkFeatureLine => s "FeatureLine"
  | TkRuleLine => s "RuleLine" | TkBackgroundLine => s "BackgroundLine"
  | TkScenarioLine => s "ScenarioLine" | TkExamplesLine => s "ExamplesLine"
  | TkStepLine => s "StepLine" | TkDocStringSeparator => s "DocStringSeparator"
  | TkTableRow => s "TableRow" | TkLanguage => s "Language" | TkOther => s "Other"
  end.

(** dialect.py:14-64 [Dialect]: the keyword lists of one language. *)
Record dialect := mkDialect {
  d_feature : list str; d_rule : list str; d_scenario : list str;
  d_scenarioOutline : list str; d_background : list str; d_examples : list str;
  d_given : list str; d_when : list str; d_then : list str;
  d_and : list str; d_but : list str }.

(** ** The shape of the generated parser functions (parser.py:245-3772) *)
Inductive lookahead := LA0 | LA1.
Inductive act := AStart (r : rule) | AEnd (r : rule) | ABuild.
Record trans := mkTr {
  tr_tok : tok;               (* if self.match_<tok>(context, token) *)
  tr_la : option lookahead;   (* and self.lookahead_<k>(context, token) *)
  tr_acts : list act;         (* start_rule / end_rule / build calls, in order *)
  tr_next : nat }.            (* return <n> *)
Record pstate := mkSt {
  st_trans : list trans;
  st_expected : list tok;     (* expected_tokens of the error tail *)
  st_self : nat }.            (* the state returned by the error tail *)

(** ** Locations, errors, exceptions *)

(** location.py:5-8 [Location] *)
Record location := mkLoc { l_line : nat; l_col : option nat }.

(** errors.py:11-45: [ParserException] and its subclasses; [pe_msg] is args[0]. *)
Inductive pkind := KParser | KNoSuchLanguage | KAstBuilder | KUnexpectedEOF | KUnexpectedToken.
Record perr := mkPErr { pe_kind : pkind; pe_msg : str; pe_loc : location }.

(** Exceptions as values.  Besides the two parser exception classes only the
    Python exceptions that the modelled code can raise are distinguished. *)
Inductive exn :=
| EParser (e : perr)                (* ParserException *)
| EComposite (es : list perr)       (* CompositeParserException, errors.py:48-51 *)
| EAttributeError                   (* attribute access on a wrong object *)
| ERuntimeError                     (* "Unknown state" / generator raised StopIteration *)
| EStopIteration                    (* next() without default on an empty iterator *)
| ETypeError
| EIndexError
| EKeyError (k : str)
| EReError                          (* re.error: bad regular expression *)
| EUnmodelled                       (* outside the modelled fragment of [re] *)
| EFuel.                            (* the fuel of a model loop ran out: the loop would go on *)

Inductive result (A : Type) := Ok (a : A) | Err (e : exn).
Arguments Ok {A} a.
Arguments Err {A} e.

Definition rbind {A B} (r : result A) (f : A -> result B) : result B :=
  match r with Ok a => f a | Err e => Err e end.
