{
 "claims": [
  {
   "property": "C01",
   "status": "proved",
   "theorems": [
    "C01_defined_outcome",
    "C01_markdown"
   ],
   "note": "Classic and Markdown matcher, collecting and stop_at_first_error."
  },
  {
   "property": "C02",
   "status": "proved",
   "theorems": [
    "C02_every_line_once"
   ],
   "note": ""
  },
  {
   "property": "C03",
   "status": "proved",
   "theorems": [
    "C03_follows_the_grammar",
    "C03_markdown"
   ],
   "note": "Classic and Markdown matcher."
  },
  {
   "property": "C04",
   "status": "proved",
   "theorems": [
    "C04_parse_iff",
    "C04_unambiguous"
   ],
   "note": "A text is accepted exactly if its numbered lines stand for a document (DocSpec.stands_for), and that document is unique. Plain-text dialects, all 70+ languages; locations included, ids erased."
  },
  {
   "property": "C05",
   "status": "proved",
   "theorems": [
    "C05_locations"
   ],
   "note": "Every feature, rule, scenario, background, examples block, step, tag, row, cell, table and doc string of an accepted text is located at its line/column."
  },
  {
   "property": "C06",
   "status": "proved",
   "theorems": [
    "C06_ids_unique",
    "C06_id_strings"
   ],
   "note": "For both matchers."
  },
  {
   "property": "C07",
   "status": "proved",
   "theorems": [
    "C07_cells_round_trip",
    "C07_blank_before_final_newline_lost"
   ],
   "note": "second theorem: the excluded kind of value really is lost"
  },
  {
   "property": "C08",
   "status": "proved",
   "theorems": [
    "C08_cell_columns",
    "C08_column_points_at_text"
   ],
   "note": ""
  },
  {
   "property": "C09",
   "status": "proved",
   "theorems": [
    "C09_tags_round_trip",
    "C09_column_points_at_tag"
   ],
   "note": ""
  },
  {
   "property": "C10",
   "status": "partial",
   "theorems": [
    "C10_never_a_parser_error",
    "C10_refuted",
    "C10_tag_lines",
    "C10_table_rows",
    "C10_well_formed_lines_partial"
   ],
   "note": "The property is false of the code: the line scanner raises AttributeError/RuntimeError for such lines, and parse lets them through. Proved: exactly which lines are well formed, that these give no error, and that the others never give a parser error."
  },
  {
   "property": "C100",
   "status": "proved",
   "theorems": [
    "C100_added_document",
    "C100_removed_document",
    "C100_added",
    "C100_removed"
   ],
   "note": "classic files; suites for the default language en, documents for every supported language"
  },
  {
   "property": "C101",
   "status": "proved",
   "theorems": [
    "C101_same_in_words",
    "C101_translated",
    "C101_words",
    "C101_no_words"
   ],
   "note": "translation as text: classic files; same_in_words: classic and Markdown"
  },
  {
   "property": "C102",
   "status": "proved",
   "theorems": [
    "C102_written",
    "C102_same_suite"
   ],
   "note": "Without descriptions, since Markdown has none."
  },
  {
   "property": "C103",
   "status": "proved",
   "theorems": [
    "C103_same_suite",
    "C103_written",
    "C103_placeholders_differ"
   ],
   "note": "C103_placeholders_differ: without the condition on placeholders it is false."
  },
  {
   "property": "C104",
   "status": "proved",
   "theorems": [
    "C104_same_suite",
    "C104_same_pickles",
    "C104_and_first_differs"
   ],
   "note": "Two files related by feature_written_out (relational, uses PickleSpec's filled). C104_and_first_differs shows why no_and_first is needed. Case: C104_case."
  },
  {
   "property": "C105",
   "status": "proved",
   "theorems": [
    "C105_same_suite",
    "C105_any_headers",
    "C105_written",
    "C105_split_outline",
    "C105_split_table",
    "C105_first_rule_dissolved",
    "C105_empty_table",
    "C105_empty_outline",
    "C105_empty_rule"
   ],
   "note": "General theorem over feature_view, and six ways of grouping as corollaries; C105_written: any such grouping that can be written down; C105_any_headers: with any table headers, if both files give suites. Case: C105_case."
  },
  {
   "property": "C106",
   "status": "proved",
   "theorems": [
    "C106_same_view",
    "C106_same_suite",
    "C106_written"
   ],
   "note": "tags_down is a function on features; the view of C105 stays the same, so does the suite. Case: C106_case."
  },
  {
   "property": "C107",
   "status": "proved",
   "theorems": [
    "C107_same_view",
    "C107_same_suite",
    "C107_written"
   ],
   "note": "dissolve and flattened are functions on features; via the view of C105 and via C103. Case: C107_case."
  },
  {
   "property": "C11",
   "status": "proved",
   "theorems": [
    "C11_content",
    "C11_any_content",
    "C11_round_trip"
   ],
   "note": "Content of every doc string of an accepted text; any lines may stand in a doc string; lines are read back as written."
  },
  {
   "property": "C12",
   "status": "proved",
   "theorems": [
    "C12_step_lines"
   ],
   "note": ""
  },
  {
   "property": "C13",
   "status": "partial",
   "theorems": [
    "C13_keyword_usable_partial",
    "C13_shadowed_never_recognised",
    "C13_refuted"
   ],
   "note": "False for ten keywords of three languages, which are proved unusable; proved for all others (when no longer keyword also prefixes the line)."
  },
  {
   "property": "C14",
   "status": "proved",
   "theorems": [
    "C14_line_kinds_exclusive",
    "C14_order_irrelevant",
    "C14_blank_lines"
   ],
   "note": ""
  },
  {
   "property": "C15",
   "status": "proved",
   "theorems": [
    "C15_header",
    "C15_language_reported",
    "C15_default_irrelevant",
    "C18_reuse"
   ],
   "note": "Header first significant line; acceptance, language and independence of the default language. That the matcher returns to its default language on the next parse is C18."
  },
  {
   "property": "C16",
   "status": "proved",
   "theorems": [
    "C16_unsupported"
   ],
   "note": "First reported error is 'Language not supported' at that line, also with stop_at_first_error; a later line that crashes the scanner (C01, C10) can pre-empt the report, and the theorem says exactly when."
  },
  {
   "property": "C17",
   "status": "proved",
   "theorems": [
    "C17_error_reports",
    "C17_first_error_located",
    "C17_markdown_reports",
    "C17_markdown_first_error"
   ],
   "note": "Classic and Markdown matcher."
  },
  {
   "property": "C18",
   "status": "proved",
   "theorems": [
    "C18_reuse"
   ],
   "note": ""
  },
  {
   "property": "C19",
   "status": "proved",
   "theorems": [
    "C19_comments"
   ],
   "note": "Comments are exactly the lines beginning with # other than the language header and lines inside doc strings, in order."
  },
  {
   "property": "C20",
   "status": "proved",
   "theorems": [
    "C20_rectangular",
    "C20_ragged"
   ],
   "note": "C20_rectangular: every table of a returned document is rectangular. C20_ragged: if the lines stand for a document up to ragged tables (specification RaggedSpec.v), parse raises for every ragged table, in text order, the error at its first row whose cell count differs from the first row's (first only / first eleven), and accepts exactly if none is ragged. Concrete case: C20_ragged_case."
  },
  {
   "property": "C21",
   "status": "proved",
   "theorems": [
    "C21_pickle_per_scenario_or_row"
   ],
   "note": ""
  },
  {
   "property": "C22",
   "status": "proved",
   "theorems": [
    "C22_background_then_own_steps"
   ],
   "note": ""
  },
  {
   "property": "C23",
   "status": "proved",
   "theorems": [
    "C23_tags_inherited"
   ],
   "note": ""
  },
  {
   "property": "C24",
   "status": "proved",
   "theorems": [
    "C24_placeholders_filled",
    "C24_filled_unique",
    "C24_no_placeholder"
   ],
   "note": ""
  },
  {
   "property": "C25",
   "status": "partial",
   "theorems": [
    "C25_refuted",
    "C25_harmless_headers_partial",
    "C24_placeholders_filled"
   ],
   "note": "The property is false of the code (headers are used as regular expressions), witnesses in C25_refuted. Proved for every parsed document whose headers have no special characters (braces and closing brackets allowed unless they form a repetition such as {2}): compile succeeds and only the literal <header> is replaced (C25_harmless_headers_partial)."
  },
  {
   "property": "C26",
   "status": "partial",
   "theorems": [
    "C26_step_types_partial",
    "C26_refuted"
   ],
   "note": "Proved with one exception, which is a bug of the code: a leading And/But in an outline gets no type (None) instead of Unknown (C26_refuted)."
  },
  {
   "property": "C27",
   "status": "proved",
   "theorems": [
    "C27_ids_and_nodes"
   ],
   "note": ""
  },
  {
   "property": "C28",
   "status": "proved",
   "theorems": [
    "C28_compile_parsed",
    "C28_plain_headers"
   ],
   "note": "For documents parsed by either matcher."
  },
  {
   "property": "C29",
   "status": "partial",
   "theorems": [
    "C29_outcome_partial",
    "C29_refuted",
    "C29_exactly",
    "C29_exactly_all"
   ],
   "note": "Outcome characterised for every content of a .feature or Markdown file. Full property false: an unexpected-end-of-file error has no column and makes build_gherkin_model itself raise TypeError (C29_refuted).; C29_exactly: for classic files, and C29_exactly_all: for every file, it raises exactly if parsing reports an unexpected end of file"
  },
  {
   "property": "C30",
   "status": "proved",
   "theorems": [
    "C30_tests_and_calls",
    "C30_built"
   ],
   "note": "For .feature and Markdown files; test_of/call_of in SuiteSpec.v."
  },
  {
   "property": "C31",
   "status": "proved",
   "theorems": [
    "C31_sound",
    "C31_none",
    "C31_parsed"
   ],
   "note": "For both matchers."
  },
  {
   "property": "C32",
   "status": "proved",
   "theorems": [
    "C32_tags"
   ],
   "note": "For .feature and Markdown files."
  },
  {
   "property": "C33",
   "status": "partial",
   "theorems": [
    "C33_row_names_partial",
    "C33_refuted"
   ],
   "note": "Holds for tables introduced by the keyword Examples, in .feature and Markdown files; other keywords and languages get no suffix (C33_refuted)."
  },
  {
   "property": "C34",
   "status": "proved",
   "theorems": [
    "C34_unescape",
    "C34_one_argument",
    "C34_injective",
    "C34_no_control_word"
   ],
   "note": "For strings of Unicode code points and any str.isprintable; Robot Framework's unescape is specified in RobotSpec.v."
  },
  {
   "property": "C35",
   "status": "proved",
   "theorems": [
    "C35_arguments"
   ],
   "note": "args_of in SuiteSpec.v; evaluation of &{{..}} by Robot Framework is taken as: unescape the body, read it as a Python literal."
  },
  {
   "property": "C36",
   "status": "proved",
   "theorems": [
    "C36_resources",
    "C36_listing_order",
    "C36_unreadable"
   ],
   "note": "Directory trees are finite, without symbolic links; names non-empty without slash and distinct within a directory (dir_ok)."
  },
  {
   "property": "C37",
   "status": "proved",
   "theorems": [
    "C37_glob",
    "C37_literal",
    "C37_extension",
    "C37_extensions",
    "C37_star",
    "C37_question"
   ],
   "note": "C37_glob: every pattern built from ordinary characters, ?, *, groups and ** (brackets excluded). ? also matches a slash, as the code does."
  },
  {
   "property": "C38",
   "status": "proved",
   "theorems": [
    "C38_iteration",
    "C38_sound_and_complete",
    "C38_unreadable"
   ],
   "note": ""
  },
  {
   "property": "C39",
   "status": "proved",
   "theorems": [
    "C39_suite_hooks_before_setup",
    "C39_test_hooks_before_setup",
    "C39_no_hooks_no_change",
    "C39_and_argument_refuted"
   ],
   "note": "the last theorem shows the AND exclusion is needed"
  },
  {
   "property": "C40",
   "status": "partial",
   "theorems": [
    "C40_teardown_kept_partial",
    "C40_setup_replaced_by_teardown",
    "C40_setup_refuted"
   ],
   "note": "First half proved; second half is false of the code: with hooks and a teardown the setup is overwritten."
  },
  {
   "property": "C41",
   "status": "partial",
   "theorems": [
    "C41_calls_until_failure_partial",
    "C41_failure_reported_refuted"
   ],
   "note": "Order and stopping proved; the failure never reaches the caller (finally: break swallows it)."
  },
  {
   "property": "C42",
   "status": "proved",
   "theorems": [
    "C42_event_stream",
    "C42_no_exception"
   ],
   "note": "the stream of all sources and options, including how it ends with an exception"
  },
  {
   "property": "C43",
   "status": "partial",
   "theorems": [
    "C43_refuted",
    "C43_order_partial"
   ],
   "note": "false of the code (C43_refuted); the order holds if no line has a tag and is a scenario or examples header, and all doc strings use one delimiter"
  },
  {
   "property": "C44",
   "status": "proved",
   "theorems": [
    "C44_title_lines",
    "C44_step_lines"
   ],
   "note": "titles (rule, background, scenario, examples) and steps, for every physical line; the feature line is C45"
  },
  {
   "property": "C45",
   "status": "proved",
   "theorems": [
    "C45_feature_line",
    "C45_once",
    "C45_only_tags"
   ],
   "note": "the feature of every parsed Markdown text; no later feature line in any history of matcher calls; a text of tag lines only is refused"
  },
  {
   "property": "C46",
   "status": "proved",
   "theorems": [
    "C46_table_rows",
    "C46_separator_rows"
   ],
   "note": "one cell of dashes makes a row a separator row"
  },
  {
   "property": "C47",
   "status": "proved",
   "theorems": [
    "C47_descriptions"
   ],
   "note": "Descriptions of all elements of an accepted text."
  },
  {
   "property": "C48",
   "status": "proved",
   "theorems": [
    "C48_crlf",
    "C48_files"
   ],
   "note": "classic matcher: parse_with (to_crlf text) = parse_with text, any text (also with CR), language, error mode; documents, ids, errors and messages; examples C48_case, C48_case_errors"
  },
  {
   "property": "C49",
   "status": "proved",
   "theorems": [
    "C49_feature_files"
   ],
   "note": "The list of files only; building each is build_gherkin_model (C29-C36)."
  },
  {
   "property": "C50",
   "status": "partial",
   "theorems": [
    "C50_exact",
    "C50_suite",
    "C50_markdown_crlf_partial",
    "C50_markdown_crlf_refuted"
   ],
   "note": "false of the code in full (C50_markdown_crlf_refuted: a blank feature line); C50_exact: the two outcomes are equal if and only if the text is refused or its feature line is not a blank line ending with a newline; C50_markdown_crlf_partial: only the column of the feature can differ; C50_suite: the Robot suite is always the same"
  },
  {
   "property": "C51",
   "status": "partial",
   "theorems": [
    "C51_refuted",
    "C51_prose_partial"
   ],
   "note": "false of the code (C51_refuted); a line that begins with no doc string delimiter leaves the matcher unchanged"
  },
  {
   "property": "C52",
   "status": "proved",
   "theorems": [
    "C52_tag_lines",
    "C52_one_reading"
   ],
   "note": "md_tags is the relational specification of the tags of a line"
  },
  {
   "property": "C53",
   "status": "proved",
   "theorems": [
    "C53_first_error",
    "C53_collected",
    "C53_accepted"
   ],
   "note": "Both matchers; a Python error raised by a later line (C01, C10) may pre-empt the collected report, as the theorem says; the column of an unsupported-language error may differ (C60)."
  },
  {
   "property": "C54",
   "status": "proved",
   "theorems": [
    "C54_written",
    "C54_returned",
    "C54_documents",
    "C54_round_trip"
   ],
   "note": "canonical writer and exact set of documents the parser returns (classic matcher)"
  },
  {
   "property": "C55",
   "status": "partial",
   "theorems": [
    "C55_exactly_partial",
    "C55_balanced_partial",
    "C55_refuted"
   ],
   "note": "Not true of the code: a doc string such as ':-}' ends the variable too early (C55_refuted). Proved: the exact condition (braces close what they open) and, for all texts, that the variables found inside are exactly those written by the user."
  },
  {
   "property": "C56",
   "status": "proved",
   "theorems": [
    "C56_simple",
    "C56_refuted"
   ],
   "note": "C56_refuted: with a line break the two readings differ."
  },
  {
   "property": "C57",
   "status": "partial",
   "theorems": [
    "C57_printed_partial",
    "C57_no_ast_partial",
    "C57_refuted"
   ],
   "note": "Not true of the code: Location objects are not JSON serialisable, so the program ends with TypeError at the first document with a feature or comment and at the first parser error (C57_refuted). Proved: exactly what is printed, and that everything is printed with --no-ast for sources without errors."
  },
  {
   "property": "C58",
   "status": "proved",
   "theorems": [
    "C58_messages"
   ],
   "note": "wording, place and, for unexpected lines, that none of the listed kinds fits; C58_case shows all four forms"
  },
  {
   "property": "C59",
   "status": "partial",
   "theorems": [
    "C59_listed",
    "C59_only_partial",
    "C59_only_collected_partial",
    "C59_refuted"
   ],
   "note": "every listed kind is accepted (full, both modes); that nothing else is accepted is false after tag lines (C59_refuted: a Scenario line is accepted though only #TagLine, #RuleLine, #Comment, #Empty are listed) and proved in all other cases, in stop-at-first-error mode (C59_only_partial) and where errors are collected (C59_only_collected_partial, unless the file has a malformed tag line or table row, see C10)"
  },
  {
   "property": "C60",
   "status": "partial",
   "theorems": [
    "C60_place_partial",
    "C60_line",
    "C60_refuted",
    "C60_exactly",
    "C60_markdown"
   ],
   "note": "false for an indented unsupported language header when errors are collected (location column 1, message shows the real column); proved for every other error and for stop_at_first_error; the line always agrees; C60_exactly: exactly when it holds; C60_markdown: holds of Markdown files without exception"
  },
  {
   "property": "C61",
   "status": "proved",
   "theorems": [
    "C61_pickles",
    "C61_rewritten"
   ],
   "note": "Essence of a document defined in EssenceSpec.v; C61_case is a concrete pair."
  },
  {
   "property": "C62",
   "status": "proved",
   "theorems": [
    "C62_same_suite",
    "C62_rewritten"
   ],
   "note": "Positions aside; covers a classic and a Markdown file with the same feature (C62_case, C62_case_markdown)."
  },
  {
   "property": "C63",
   "status": "proved",
   "theorems": [
    "C63_same_feature",
    "C63_same_suite"
   ],
   "note": "for all texts and layouts; whitespace-only lines and comments inside descriptions are outside the claim (they do change descriptions)"
  },
  {
   "property": "C64",
   "status": "proved",
   "theorems": [
    "C64_positions"
   ],
   "note": "classic files; line from 1, column from 0 as Robot counts"
  },
  {
   "property": "C65",
   "status": "proved",
   "theorems": [
    "C65_document",
    "C65_pickles",
    "C65_suite",
    "C65_copied"
   ],
   "note": "classic feature files; the old text must end its last line"
  },
  {
   "property": "C66",
   "status": "proved",
   "theorems": [
    "C66_listing",
    "C66_determined",
    "C66_accepts",
    "C66_rejects"
   ],
   "note": "classic matcher; the listing of the Markdown matcher is not covered"
  },
  {
   "property": "C67",
   "status": "proved",
   "theorems": [
    "C67_message"
   ],
   "note": "classic matcher"
  },
  {
   "property": "C68",
   "status": "proved",
   "theorems": [
    "C68_translation"
   ],
   "note": "Line-by-line translation; concrete case C68_case (accepted: C68_case_accepted). Not covered: features without a feature header in the first lines (free feature line, see C50/C52), descriptions, fences of four backticks."
  },
  {
   "property": "C69",
   "status": "proved",
   "theorems": [
    "C69_event",
    "C69_document",
    "C69_pickle",
    "C69_different"
   ],
   "note": "Locations are atoms in the dictionaries."
  },
  {
   "property": "C70",
   "status": "proved",
   "theorems": [
    "C70_same_suite"
   ],
   "note": "Concrete case C70_case; C70_star shows that the hypothesis on star steps is needed (Markdown gives them the type Context, and the builder drops the keyword only for the type Unknown)."
  },
  {
   "property": "C71",
   "status": "proved",
   "theorems": [
    "C71_suite_name"
   ],
   "note": "Concrete case C71_case. Robot Framework's SuiteBuilder is not modelled."
  },
  {
   "property": "C72",
   "status": "partial",
   "theorems": [
    "C72_refuted",
    "C72_partial"
   ],
   "note": "False of the code: collect_gherkin_suites returns the pairs of build_gherkin_model, which are appended as children (C72_refuted). C72_partial proves the rest: children kept, one new entry per feature file, with the file's result. Missing: that the new entries are suites."
  },
  {
   "property": "C73",
   "status": "proved",
   "theorems": [
    "C73_format"
   ],
   "note": "Hypothesis: no CR without LF (VS Code keeps one kind of line end per document); C73_lone_cr shows it is needed. Parser and printer (external JavaScript libraries) are a parameter."
  },
  {
   "property": "C74",
   "status": "proved",
   "theorems": [
    "C74_markdown_locations"
   ],
   "note": "Markdown counterpart of C05; descriptions and doc strings only as lines of the text (order and completeness: C43, C51)"
  },
  {
   "property": "C75",
   "status": "proved",
   "theorems": [
    "C75_markdown_positions"
   ],
   "note": "Markdown counterpart of C64"
  },
  {
   "property": "C76",
   "status": "proved",
   "theorems": [
    "C76_repair"
   ],
   "note": "all texts of the classic format refused with at most ten errors; C76_case: a text with a cascade after a tag, a ragged table and an unexpected end Concrete case: Example C76_case."
  },
  {
   "property": "C77",
   "status": "proved",
   "theorems": [
    "C77_document",
    "C77_suite",
    "C77_removed"
   ],
   "note": "case: C77_case, C77_case_suites"
  },
  {
   "property": "C78",
   "status": "proved",
   "theorems": [
    "C78_last_line",
    "C78_last_line_markdown",
    "C78_suite"
   ],
   "note": "classic: equal outcome; Markdown: exact condition (iff) for equality, the suite is equal in all cases"
  },
  {
   "property": "C79",
   "status": "partial",
   "theorems": [
    "C79_tokens",
    "C79_marks_partial",
    "C79_refuted"
   ],
   "note": "first part proved; the claim about the marked columns is false of the code (a step with an asterisk, several blanks after the keyword); proved exactly when it holds for scenarios without examples"
  },
  {
   "property": "C80",
   "status": "proved",
   "theorems": [
    "C80_order"
   ],
   "note": "two groups change places: the same tests, only moved"
  },
  {
   "property": "C81",
   "status": "proved",
   "theorems": [
    "C81_document",
    "C81_suite"
   ],
   "note": "rewording prose in Markdown files (the positive side of C51)"
  },
  {
   "property": "C82",
   "status": "proved",
   "theorems": [
    "C82_messages",
    "C82_composite"
   ],
   "note": "Feature lines and doc string delimiters are left out of the 'none of these kinds' part: whether a line is one depends on the lines before it. The column is only known to be at least 1 (it may be that of the keyword). Concrete case: Example C82_case."
  },
  {
   "property": "C83",
   "status": "proved",
   "theorems": [
    "C83_prose_never_refused"
   ],
   "note": "every line reported as unexpected in a Markdown file is a header, step, tag line, table line or fence, never prose"
  },
  {
   "property": "C84",
   "status": "proved",
   "theorems": [
    "C84_removed_document",
    "C84_added_document",
    "C84_removed",
    "C84_added"
   ],
   "note": "Classic files. The suite after adding a row needs the table's column names to be plain words (C25: the compiler may fail otherwise)."
  },
  {
   "property": "C85",
   "status": "proved",
   "theorems": [
    "C85_document",
    "C85_suite"
   ],
   "note": "document and suite; the new tags go to exactly the tests of that scenario Concrete case: Example C85_case. Concrete case: Example C85_case_suites."
  },
  {
   "property": "C86",
   "status": "proved",
   "theorems": [
    "C86_document",
    "C86_suite"
   ],
   "note": "side condition on And steps shown necessary by C86_and; cases C86_case, C86_case_suites"
  },
  {
   "property": "C87",
   "status": "proved",
   "theorems": [
    "C87_document",
    "C87_suite"
   ],
   "note": "side condition on the type shown necessary by C87_and; cases C87_case, C87_case_suite"
  },
  {
   "property": "C88",
   "status": "proved",
   "theorems": [
    "C88_document",
    "C88_suite"
   ],
   "note": "cases C88_case, C88_case_suites"
  },
  {
   "property": "C89",
   "status": "proved",
   "theorems": [
    "C89_document",
    "C89_suite"
   ],
   "note": "Beside them C89_case, C89_case_suite (a one-row table made wider, with a placeholder and an escape) and C89_misfit (why the row must fit)."
  },
  {
   "property": "C90",
   "status": "proved",
   "theorems": [
    "C90_same_suite"
   ],
   "note": "exact equality of suites"
  },
  {
   "property": "C91",
   "status": "proved",
   "theorems": [
    "C91_document",
    "C91_suite"
   ],
   "note": "C91_keyword shows why examples must keep their keyword (C33)"
  },
  {
   "property": "C92",
   "status": "proved",
   "theorems": [
    "C92_read",
    "C92_files",
    "C92_mixed"
   ],
   "note": "decoding of bytes is not modelled"
  },
  {
   "property": "C93",
   "status": "proved",
   "theorems": [
    "C93_tags_only"
   ],
   "note": "All parts have a concrete case (C93_case)."
  },
  {
   "property": "C94",
   "status": "proved",
   "theorems": [
    "C94_document",
    "C94_suite"
   ],
   "note": "Concrete cases for all four kinds of titles (C94_case)."
  },
  {
   "property": "C95",
   "status": "proved",
   "theorems": [
    "C95_docs_only"
   ],
   "note": "Two files whose features differ in descriptions give suites that differ in documentation."
  },
  {
   "property": "C96",
   "status": "proved",
   "theorems": [
    "C96_document",
    "C96_suite"
   ],
   "note": "The new line comes first; white space w is between it and the old description."
  },
  {
   "property": "C97",
   "status": "proved",
   "theorems": [
    "C97_arguments_only",
    "C97_suites"
   ],
   "note": "closed under the global context"
  },
  {
   "property": "C98",
   "status": "proved",
   "theorems": [
    "C98_replaced_document",
    "C98_removed_document",
    "C98_added_document",
    "C98_replaced",
    "C98_removed",
    "C98_added"
   ],
   "note": "classic files; what the arguments of the calls of the edited step are is C30 and C25 of the other file"
  },
  {
   "property": "C99",
   "status": "proved",
   "theorems": [
    "C99_replaced_document",
    "C99_removed_document",
    "C99_added_document",
    "C99_replaced",
    "C99_removed",
    "C99_added"
   ],
   "note": "classic files; the lines of the argument are contiguous (comments inside a table: the table's rows must be those of the lines exchanged); what the arguments of the calls of the edited step are is C30 and C25 of the other file"
  }
 ]
}