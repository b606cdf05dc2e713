# Formal model of robotframework-gherkin-parser in Rocq (Coq 8.16.1)

## 1. What is modelled

All files are under `rocq/theories`. Every definition cites the Python lines it models.

| File | Models |
|---|---|
| `PyStr.v` | Python `str` as lists of code points, the `str` methods used (strip, split, replace, ...), `StringIO.readline` |
| `Types.v` | tokens, rules, dialect records, locations, exceptions as values |
| `Regex.v` | the fragment of `re` used: a backtracking engine (list of successes), match/search/fullmatch/sub, a parser of pattern strings |
| `DialectData.v` | `gherkin-languages.json` (79 dialects), generated by `tools/gen_dialects.py` |
| `ParserTable.v` | the 50 functions `match_token_at_N` of `parser.py`, generated by `tools/gen_table.py`, which asserts the shape of every function |
| `Line.v` | `gherkin_line.py`, `token.py` |
| `Matcher.v` | `dialect.py`, `token_matcher.py`, `token_matcher_markdown.py` |
| `Ast.v` | `ast_node.py`, `ast_builder.py` (transform_node and helpers), `stream/id_generator.py` |
| `Parser.v` | `parser.py` (everything else: error handling, lookahead with its token queue, main loop), `token_scanner.py`, `errors.py`, stack handling of `ast_builder.py`, `token_formatter_builder.py` |
| `Compiler.v` | `pickles/compiler.py` |
| `Glob.v` | `glob_path.py` |
| `Robot.v`, `CallTokens.v` | `gherkin_builder.py` |
| `Library.v` | `Library.py` (hooks) |
| `Events.v` | `stream/gherkin_events.py` |
| `Main.v` | `__main__.py`, `stream/source_events.py` |
| `Runner.v` | `gherkin_parser.py`; `collect_gherkin_suites` and `GherkinRunner` of `gherkin_builder.py` |
| `Format.v` | `vscode-client/formattingEditProvider.ts` |

`Conform.v` checks the model against the repository: every assertion of `tests/gurke/*.py` and the six example feature files, computed in the model
(tests of the model, not properties).
The regular expressions and the Python primitives of the model were also compared with CPython itself: `tools/diff_regex.py` (random headers, values and texts against `re.sub`) and `tools/diff_prims.py` (every regular expression of the matchers, `strip`, `split`, `replace`, `repr`, `sorted`, `pathlib`, universal newlines) write Coq files of equations with the values CPython computes; all 25000 of them hold, but for headers outside the modelled fragment of the syntax (`EUnmodelled`).

Not modelled: Robot Framework itself (its objects are records of the arguments passed to
them; also its `SuiteBuilder` and the check its setter for child suites makes), file
reading and decoding (except universal newlines, C48), `count_symbols.py` (`len`, unused),
the release scripts under `scripts/`, the VS Code client beyond the formatting edit (activation; the JavaScript
parser and printer it calls are external), symbolic links and file-system races (directory trees are finite
trees; a directory may be unreadable), memory and recursion limits, time.

### Modelling decisions

* **Exceptions are values** (`result`, `exn`). A function that may raise returns the state as it leaves it.
* **Mutable objects** become records passed along: the matcher (`mstate`), the token (`token`), the
  parser context (`ctx`), the builder (`astb`).
* **Builder**: `Parser` takes a builder object; the parser model is parametric in the builder
  (record `builder`), instantiated with `AstBuilder` and `TokenFormatterBuilder`.
* **Loops** with unclear termination have fuel; running out of it is the exception value `EFuel`,
  and theorem C01 proves that it does not happen.
* **Identifiers** are the numbers `n` of `str(n)`.
* **Aliasing**: the `Location` of a `NoSuchLanguageException` is the token's own object, whose
  column is set to 1 when the same line is then matched as a comment.  `add_error` records the error
  in that final form (`settled`); `nolang_comment` (PropLang.v) shows that the line is matched so.
* `re`: an iteration of a star that consumes nothing is not taken; only the syntax used is parsed,
  anything else is the distinguished value `EUnmodelled`.
* `str.isprintable` (used by `repr`) is an arbitrary predicate `printable`.

## 2. Trusted base

* Coq's kernel (including `vm_compute`), version 8.16.1.
* `Print Assumptions` under every property theorem: "Closed under the global context"; no axioms are
  used, neither own ones nor those of the standard library. (The verdict of `vcheck` also lists the
  constants `Coq.ssr.ssrunder.Under_rel.*`: they belong to a module type of the library that is loaded
  with `lia`/`zify`; no theorem depends on them.)
* The reading of the Python code (sections above), of the Python built-ins (`PyStr.v`, `Regex.v`,
  `repr` in `Robot.v`) and of `pathlib` (suffix, stem, relative paths). `is_space` was checked against
  CPython by enumerating all code points.
* What other programs do with the output, as far as a statement mentions it (`RobotSpec.v`, `HookSpec.v`;
  specification, not code of the repository): Robot Framework's `unescape`; that the body of an
  argument `&{{..}}` is unescaped and then read as a Python literal (C35; some versions may only undo the
  escaping of variables there: C56 says for which texts this makes no difference, `C56_refuted` shows that
  it does for a line break); Python's string and dictionary
  literals; that `Run Keywords` splits its arguments at `AND`; Robot Framework's search for the end
  of a variable (C55); Robot Framework's `KeywordCall.from_params` as used for the tokens of a call
  (`CallTokens.v`, C79).
* The two generators under `tools/` (they only transcribe; they abort on any unexpected shape).

### Files

Model: the table of section 1. Specification (no proofs, independent of the model except for record
types): `LineSpec` (C07-C14), `LangSpec` (C15, C16), `DocSpec` (what a text says, C04), `RaggedSpec`
(C20), `PartsSpec` (parts of documents, C05, C11, C47), `CommentSpec` (C19), `EssenceSpec` (C61, C62), `RelaySpec` (C63), `ListSpec` (C66), `ReadSpec` (C69), `TransSpec` (C68), `EditSpec` (C73), `MdPlaceSpec` (C74), `EmptySpec` (C76), `MiddleSpec` (C77), `MdErrorSpec` (C82), `ExampleSpec` (C84), `PartSpec` (C85, C86), `WordSpec` (C87, C88), `ArgSpec` (C89), `TitleSpec` (C90, C91), `LabelSpec` (C93, C94), `ProseSpec` (C95, C96), `ArgOnlySpec` (C97), `DocEditSpec` (C98), `ArgEditSpec` (C99), `HeaderSpec` (C100), `WordsSpec` (C101), `MdWriteSpec` (C102), `SpreadSpec` (C103), `ExpandSpec` (C104), `GroupSpec` (C105), `DownSpec` (C106), `FlatSpec` (C107), `Grammar` (C03, the
productions of gherkin.berp), `IdSpec` (C06, C18), `PickleSpec` (C21-C28), `SuiteSpec`, `RobotSpec`,
`FindSpec` (C29-C35), `GlobSpec`, `FilesSpec` (C36-C38, C49), `HookSpec` (C39-C41), `MdSpec` (C43-C46,
C51, C52), `WriteSpec` (C54), `VarSpec` (C55, C56). Property theorems: `Prop*.v`. Everything else are lemmas:

* strings and patterns: `PyStrFacts`, `RegexFacts`, `ReSem` (declarative semantics of the regular
  expressions), `LineFacts`, `TagFacts`, `TagIff`, `RowIff`, `StepFacts`, `LangFacts`, `GlobFacts`, `MdFacts`, `MdTags`;
* the parser, classic: `Classify`, `Table`, `Scan` (queue elimination), `Report` (error list), `Deriv`, `Cert`
  (stack and grammar certificate), `Cst` (soundness), `Complete` (completeness), `Eval`, `Ids`, `WfDoc`;
* documents: `Erase`, `Den`, `LineIff`, `Means`, `Layout`, `Texts`, `DocStr`, `Blocks`, `DocRun`,
  `FeatureDoc`, `DocMeans`, `Parts`;
* writing documents: `WriteRead`, `WriteBack`;
* pairs of runs: `StopRun` (C53), `Rel` (builders), `Rel2` (lines), `Eol`, `EolMd`, `EolRun` (line ends);
* ragged tables: `Repair`, `RowSwap`, `Tabs`, `RaggedFacts`;
* any matcher / Markdown: `AnyRun`, `MdRun`, `WeakTree`, `WeakEval`, `AstRun`, `MdTree`, `HeadTree`, `MdFirst`, `MdOrder`;
* the rest: `PickleFacts`, `PickleTotal`, `EscapeFacts`, `ReprFacts`, `VarFacts`, `FindFacts`, `RobotFacts`, `FilesFacts`, `HookProofs`.

## 3. Properties, model and proof plan

Statements of the properties are in `properties.jsonl`; which theorem proves what is in `MANIFEST.json`.
The property theorems are in the files `Prop*.v`.

Common infrastructure:

* *Line classes.* For every dialect (finite check by computation over the 79 dialects, lifted) the classic
  `match_X` predicates are mutually exclusive on every line. So the `if` chains depend only on the class.
* *Queue elimination.* With the classic matcher the parser with lookahead queue equals a machine that
  reads the list of lines from left to right and looks ahead purely (`Scan.v`).
* *Stack certificate.* For every parser state a list of open rules and what they contain, checked by
  computation against all transitions; gives "no internal error" for every input.
* *Grammar certificate.* For every state and open rule the residual regular expression of its production,
  checked by derivatives; gives soundness with respect to the grammar of `gherkin.berp`.

| Id | Modelled by | Proof |
|---|---|---|
| C01 | `Parser.parse` | fuel argument + stack certificate invariant over the main loop |
| C02 | `parse_tokens`, `Scan.v` | queue elimination, induction over lines |
| C03 | `parse`, CST builder | grammar certificate (derivatives), induction over the run |
| C04 | `parse` | layout relation, forward simulation through the table |
| C05 | `parse` | tokens carry line and indent; invariant over builder stack |
| C06 | `parse_lines` with ids | invariant: ids in the stack are distinct and below the counter |
| C07, C08 | `table_cells` | induction over the row; closed forms of the two `re.sub` |
| C09 | `g_tags` | induction over the line |
| C10 | `parse` | refuted by two witnesses; the outcome characterised exactly |
| C11 | doc string states | induction over the content lines |
| C12, C13 | `c_match_StepLine` | find-first characterisation; C13 refuted for en-old, ht, sk; proved for all other keywords |
| C14 | classic matchers | finite check over dialects lifted to all lines |
| C15, C16 | `c_match_Language`, parser | closed form of `LANGUAGE_RE`, then run of the machine |
| C17 | parser | invariant on the error list |
| C18 | `parse_lines` from any matcher state | `reset` forgets the state; ids shift: simulation |
| C19 | parser | comments are the comment-class lines outside doc strings |
| C20 | ast builder | `ensure_cell_count`; `C20_rectangular` by an invariant of the tree evaluation; `C20_ragged` by repairing the ragged rows, taking the syntax tree of the repaired text (C04) back to the original, and reading off the errors (RaggedSpec, Repair, RowSwap, Tabs, RaggedFacts, PropRagged) |
| C21, C22, C23, C26, C27 | `compile` | induction over the document against a list-comprehension specification |
| C24, C25 | `interpolate` | regex of a literal pattern = literal replacement; C25 refuted by witness, proved for headers without special characters |
| C28 | `parse` then `compile` | parsed documents have all keys (invariant), compile total on these |
| C29 | `build_gherkin_model` | refuted: an error without column (unexpected end of file) raises TypeError; partial otherwise |
| C30 - C33 | `Robot.v` | lookup lemma (C31) + unique ids (C06) |
| C34, C35 | `escape`, `repr` | inverse function proved for every `printable` |
| C36 - C38 | `Glob.v`, `Robot.v` | closed forms of the compiled patterns; induction over directory trees |
| C39 - C41 | `Library.v` | list reasoning; C40 and C41 refuted by witnesses |
| C42 | `Events.v` | case analysis + ids |
| C43 | Markdown matcher, `parse_tokens` | refuted by witness; partial: sorted queue invariant when no tag line is also a scenario or examples header and one delimiter is used |
| C44, C46 | Markdown matcher | closed forms of the patterns (ReSem) |
| C45 | Markdown parse | run up to the feature line, then the weak tree of the rest; flag invariant for "no later one" |
| C47 | parser | part of `stands_for` (DocSpec) |
| C48, C50 | parser | simulation between the LF and the CRLF run (Rel2); C50 refuted up to the column of the feature |
| C49 | `feature_files` | C37 and C38 |
| C51 | Markdown matcher | refuted by witness; partial: lines that begin with no delimiter leave the matcher alone |
| C52 | `md_tags_go` | relational specification of leftmost non-overlapping pieces, both directions |
| C53 | `parse_with` in both modes | lockstep simulation of the two runs until the first error; afterwards the first error stays first (StopRun) |
| C54 | `parse_with` on the text of a feature | WriteSpec: a canonical writer, the conditions `writable`, equality up to ids and locations (`plain`); the written lines stand for the feature (WriteRead), what stands for a feature is writable (WriteBack, with the idempotence of escaping separators); C04 does the rest |
| C55 | `call_args`, `escape`, `repr` | VarSpec: the search for the end of a variable. Braces and identifiers survive repr and escape as they are, everything else becomes something else (`spell`); both scanners only see that. Refuted for unbalanced braces (`C55_refuted`), exact condition proved |
| C56 | `call_args` | `escape` is the identity on the repr of simple texts |
| C57 | `main` (Main.v); what is printed for an event is said independently in MainSpec.v | C42 and which events json.dumps accepts; refuted for documents and errors (Location objects), exact output proved |
| C58 | whole parse (both modes) | every error is one of the four forms of `explained` (ErrorSpec.v): text, place and, for unexpected lines, that the line is of none of the listed kinds; invariant over the scanner's events and `ev_P` |
| C59 | whole parse | two runs over the same lines with different continuations (`go_two`, ExpectFacts.v); the listed kinds are all accepted (C59_listed); the converse is refuted after tag lines (the look ahead has already chosen a state) and proved otherwise, in both modes (C59_only_partial; C59_only_collected_partial in PropExpectedAll.v) |
| C60 | whole parse, both matchers, any builder | invariant of the parser machine that needs nothing of the lines (Made.v); refuted for an indented header with an unsupported language where errors are collected (shared location object); proved otherwise, and the line is always right |
| C61 | whole compiler | the essence of a document (EssenceSpec.v); compiling related documents gives related pickles, by induction over scenarios, examples, rows and steps (EssenceFacts.v) |
| C62 | parser, compiler and builder | C61, C30 with the exact arguments of the calls, and the origins of the pickles computed without ids and places (PropEssence.v) |
| C63 | parser, matcher and builder | RelaySpec.v: `relaid` relates the numbered lines of two texts; by induction over the blocks of DocSpec a document keeps its blocks when lines are relaid, then C04_parse_iff in both directions, and C62 for suites (RelayFacts.v, RelayDoc.v, PropRelay.v). White-space-only lines are not covered: after a description they become its text; nor are comments inside a description: they end it |
| C64 | parser, compiler and builder | C30 (calls have the step's location), C05 (locations are places in the text), C24 for the names (PropPositions.v) |
| C65 | parser, compiler and builder | C04 (the blocks of the lines, extended at the end; nothing is said about the old text beyond its acceptance), C61 for the ids, C30 for the tests; C54 for texts of scenarios and rules of other files (PropAppend.v) |
| C66 | parser, matcher, TokenFormatterBuilder | ListSpec.v: a line-by-line relation `listing` over positions (start, after a title, in a doc string, elsewhere). Each parser state has a position (checked for the whole table by computation), one line at a time by `listed_step`; uniqueness from the classification of lines; acceptance from the tree theorems of C03/C20 |
| C67 | errors.py:48-51 on top of the parser | C58 gives the form of each message; no part of it contains a line feed (lines are cut at line feeds, `split_lines`); splitting a join gives the parts back |
| C68 | both matchers, the parser table, lookahead and the builder, run side by side | TransSpec.v relates lines (`stands`), says where they may occur (`next`) and which parts of a document are compared (`plain_*`: columns, comment texts and the type of a step whose keyword belongs to several groups are left out). Lock-step simulation: `match_pair` (every match attempt that can happen has the same answer on both sides), a check of the parser table by computation (which states belong to which place, which attempts happen there), the builder commutes with forgetting columns (`transform_flat`); the mode that collects errors follows by C53 |
| C69 | the dictionaries (`j_*` in Robot.v and Main.v) | ReadSpec.v is a reader by field names; `reader (writer e) = Some e` by induction over the lists, all optional fields by cases. Locations are atoms (a dataclass in Python) |
| C70 | everything from the two matchers to the suite builder | C68 gives documents equal up to columns and the types of star steps; with keywords that are words the types agree too, so C62 applies; lines of tests and calls from the characterisation of tests in C30 |
| C71 | `GherkinParser.parse` (Runner.v) | from C05 (classic) and C45 (Markdown); error suites by cases on `build_gherkin_model` |
| C72 | `collect_gherkin_suites`, `GherkinRunner.start_suite` (Runner.v) | false: the children added are pairs (model, name), not suites: `C72_refuted`; number, order and content of the new children from C49 |
| C73 | `provideDocumentFormattingEdits` (Format.v); parser and printer are a parameter | EditSpec.v defines lines, positions and offsets of an editor; the split equals the lines, by induction over the lines |
| C74 | Markdown matcher, parser, AstBuilder | MdPlaceSpec.v; every element of a document comes from matched tokens (Sourced.v, induction over syntax trees); each matched token is described by C44, C45, C46, C52; invariant: language and the remembered separator |
| C75 | as C64, for Markdown files | specification in PropMdPositions.v; from C30, C24 and C74 |
| C76 | both scans in step: an unexpected line leaves state and matcher unchanged, and so does a blank line in its place; lookaheads over repaired lines agree with the state chosen after tags | induction over the lines; table checks on the fifty states; the builder does not look at blank lines; specification EmptySpec.v |
| C77 | blocks of the document specification do not depend on line numbers; a feature as the list of its scenarios with their rules; the compiler as one run over this list, its pickles but for ids independent of the numbers | renumbering of blocks by induction over the specification; C04 in both directions; C61 for the ids; origins of the tests (C32, C64) split at the same place; specification MiddleSpec.v |
| C78 | the relation between lines that differ in their line end only, here with an empty end | the relation (Eol.v) is carried through matchers, parser and builder (EolRun.v); for Markdown the column of the feature from C45; the suite from C30 and the placement lemmas of C77; specification in PropLastLine.v |
| C79 | the tokens of a keyword call and the loop that places them (`CallTokens.v`; Robot Framework's `from_params` as specification) | C79_tokens by induction over the arguments; the plain claim about the marked columns is false (C79_refuted: `* x`, several blanks), C79_marks_partial says exactly when it holds, from C64 and C75 |
| C80 | as C77 | C77 twice, and that the compilation of a unit does not depend on identifiers or lines |
| C81 | as C68, C70 | both texts translate to the same classic text (which is shown to be a text with these lines), then C68 and C70 twice |
| C82 | as C74; lines that no transition without lookahead accepts | AnyRun.v gives, at each refusal, the refused kinds; each refusal of the Markdown matcher is turned into the absence of that kind of line |
| C83 | as C81, any file | invariant of the run: the matcher has seen its feature line in every state but the first three; each state of the table accepts a blank or any line without lookahead (checked for all states); match_Empty accepts prose |
| C84 | as C77; [on_examples], [less_examples], [more_examples] in ExampleSpec.v | the blocks of DocSpec.v with one line of one table changed (generic over the change), lines renumbered (C77), C04; pickles as one sequence over the origins, the origin of the row left out or put in |
| C85 | as C84; [on_parts], [more_tags], [test_tagged] in PartSpec.v | the blocks of DocSpec.v with one line before a title (generic over scenarios and backgrounds), lines renumbered, C04; the origins of the two documents correspond one to one, their pickles are the same but for tags |
| C86 | as C85; [step_added], [calls_inserted], [new_call], [test_inserted] in PartSpec.v | the step blocks of DocSpec.v with one line before a step, C04; induction over the steps of an origin, with the type carried along; the texts and arguments of the other steps are functions of the essence |
| C87 | as C86; [reword_step], [call_reworded], [test_reworded] in WordSpec.v | the blocks of DocSpec.v with one line replaced (PartChange.v), C04; the origins of the two documents correspond one to one; texts and arguments are functions of the essence |
| C88 | as C87; [rename], [test_renamed] in WordSpec.v | as C87 |
| C89 | as C87; [row_fits], [edit_step], [test_argued] in ArgSpec.v | as C87, with the rows of a table block; the argument of a call is a function of the essence of the step, [arg_filled] from C24 |
| C90 | [kept] in TitleSpec.v: a feature without what does not matter | as C62: compile depends on the essence (C61), and every test and call is determined by its origin in the kept feature |
| C91 | [retitled] in TitleSpec.v | as C87 with changes of the four kinds of blocks, then C90 |
| C92 | [universal_newlines]; [with_ends], [lf_or_crlf] in PropEnds.v | reading inverts [with_ends], by induction; mixed texts by the simulation of C48 |
| C93 | [tagless], [same_but_tags] in LabelSpec.v | the pickles of a feature and of the feature without tags are the same but for tags; then the tests of the two features without tags are placed as in C77 |
| C94 | [labels_added], [test_labelled] in LabelSpec.v | changes of the four kinds of blocks as for C85 and C91; then C93, and the tags of every origin |
| C95 | [proseless], [same_but_prose] in ProseSpec.v | the pickles of a feature and of the feature without descriptions are the same; then the tests of the two features without descriptions are placed as in C77 |
| C96 | [tellable], [tell_feature] in ProseSpec.v | changes of the five kinds of blocks as for C94, where a description block with a line more in front is again one; then C95, and the documentation of every origin |
| C97 | [argless], [same_but_args], [test_but_args], [same_args_kept] in ArgOnlySpec.v | the pickles of the features without arguments are the pickles without arguments; then as C95; arguments come from the argument of the step of the origin and the values of its row |
| C98 | [doc_lines], [shifted], [for_doc], [for_step], [test_but_calls] in DocEditSpec.v | by C04 a document is a derivation: a piece of the derivation found by its line is exchanged ([swaps], DocChange.v); the suite by C97 |
| C99 | [argument_lines], [has_arg], [for_arg] in ArgEditSpec.v; [shifted], [for_step], [test_but_calls] in DocEditSpec.v | as C98, the piece found by increasing line numbers ([rising], ArgChange.v) |
| C100 | [header_text], [only_notes], [no_header] in HeaderSpec.v; [language_line] in LangSpec.v | [stands_for] has a case with and one without a header (C04, both directions); then as C77 for the suite |
| C101 | [wordless], [words_of], [in_words], [prose_fits], [same_in_words] in WordsSpec.v; [feature_text] in WriteSpec.v | compile does not look at keywords, and passes the language on (C61); translated features are [writable] (C54); words found by computation over the 79 dialects |
| C102 | [markdown_text], [md_feature_ok], [same_written] in MdWriteSpec.v; [feature_ok], [feature_text] in WriteSpec.v | the Markdown text is, line by line, a translation (C68) of the classic one (C54); suites by C62 |
| C103 | [spread], [no_placeholders] in SpreadSpec.v; [feature_text] in WriteSpec.v | the pickles of both features by the relation of C21 to C26, step by step; background steps without placeholders come out of interpolation as they are (C24); tests by C30 |
| C104 | [feature_written_out], [no_and_first] in ExpandSpec.v, with [filled] of PickleSpec.v | origins of both features paired; the pickles by the relation of C21 to C26 and uniqueness of [filled] (C24); tests by C30 |
| C105 | [feature_view], [case_view] in GroupSpec.v | the pickles of both features by the relation of C21 to C26, case by case; tests by C30; the three ways of grouping by induction over the lists |
| C106 | [tags_down] in DownSpec.v; [feature_text] in WriteSpec.v | [feature_view] of GroupSpec.v stays the same, case by case; then C105 |
| C107 | [dissolve], [flattened] in FlatSpec.v; [spread] in SpreadSpec.v; [feature_text] in WriteSpec.v | [feature_view] of GroupSpec.v stays the same; then C105, after C103 for the backgrounds |
