{"id": "C01", "title": "Parsing always terminates with a defined outcome", "statement": "For every text, Parser().parse(text) with the classic matcher terminates, and either returns a document, raises CompositeParserException, or raises one of the two Python errors the line scanner can produce (AttributeError for a tag containing whitespace, RuntimeError for a table row whose last character is an unpaired backslash). It never fails with KeyError, IndexError, StopIteration, TypeError or \"Unknown state\".", "quantifier": "every text (any length, any code points)", "why_tests_cant": "the parser is a 50-state machine with unbounded lookahead and a mutable node stack; tests only sample paths through it", "anchors": ["packages/gurke/src/gurke/parser.py: Parser.parse, match_token, match_token_at_*", "packages/gurke/src/gurke/ast_builder.py: AstBuilder.transform_node"]}
{"id": "C02", "title": "Every line is consumed exactly once and in order", "statement": "With the classic matcher, the tokens the parser matches are exactly the lines of the text, each once, in order, numbered 1,2,3,..., followed by one EOF token; tag-line lookahead never reorders, drops or repeats a line.", "quantifier": "every text and every point in the parse at which a lookahead starts", "why_tests_cant": "lookahead re-queues tokens behind tokens that are already queued; only an invariant over all queue states shows the order is kept", "anchors": ["packages/gurke/src/gurke/parser.py: Parser.lookahead_0, Parser.lookahead_1, Parser.read_token"]}
{"id": "C03", "title": "Accepted documents follow the grammar", "statement": "If parse returns a document, there is a parse tree whose yield is exactly the sequence of lines, in which every node has children allowed by the published Gherkin grammar (comments and blank lines ignored), and the returned document is the image of that tree.", "quantifier": "every accepted text", "why_tests_cant": "a language-inclusion statement over unboundedly many token sequences", "anchors": ["packages/gurke/src/gurke/parser.py: match_token_at_*", "packages/gurke/gherkin.berp"]}
{"id": "C04", "title": "A text is accepted exactly if it is a layout of a document, and parses to that document", "statement": "Take any feature document (tags, descriptions, backgrounds, scenarios, outlines, examples, rules, steps, data tables, doc strings) and write it down with arbitrary indentation, blank lines and comment lines: parse returns a document which, ids forgotten, is exactly that document with the locations of its lines. Conversely a text that is no layout of a document is not accepted, and no text is a layout of two documents. (Comment lines may stand anywhere but between a title and its description or inside it: there they end the description.)", "quantifier": "every document and every layout of it, in every supported spoken language", "why_tests_cant": "round trip over unbounded nested documents and all layouts", "anchors": ["packages/gurke/src/gurke/parser.py: Parser.parse", "packages/gurke/src/gurke/token_matcher.py: TokenMatcher", "packages/gurke/src/gurke/ast_builder.py: AstBuilder", "packages/gurke/src/gurke/gherkin_line.py: GherkinLine"]}
{"id": "C05", "title": "Locations point at the source line", "statement": "Every location in the returned document is the 1-based line of the line that introduced the element, and its column is the 1-based position of the first non-blank character of that line (for tags and cells: of the tag or the cell text).", "quantifier": "every accepted text and every element of its document", "why_tests_cant": "needs every element of every document", "anchors": ["packages/gurke/src/gurke/ast_builder.py: get_location", "packages/gurke/src/gurke/token_matcher.py: _set_token_matched", "packages/gurke/src/gurke/token_scanner.py: TokenScanner.read"]}
{"id": "C06", "title": "Ids in a document are unique", "statement": "All ids in a document returned by parse are pairwise distinct, and also distinct from every id handed out by the same parser (or the id generator it shares with a compiler) before.", "quantifier": "every text, every history of the id generator", "why_tests_cant": "uniqueness over arbitrarily many elements and arbitrarily long histories", "anchors": ["packages/gurke/src/gurke/stream/id_generator.py: IdGenerator", "packages/gurke/src/gurke/ast_builder.py: AstBuilder.transform_node"]}
{"id": "C07", "title": "Table cells round-trip through escaping", "statement": "Writing any list of cell values (no leading or trailing blanks, no blank before a final newline) as a row with | escaped as \\|, backslash as \\\\ and newline as \\n, with any padding, reads back as exactly these values.", "quantifier": "every list of cell values, every padding and indentation", "why_tests_cant": "escape sequences interact; the claim ranges over all strings", "anchors": ["packages/gurke/src/gurke/gherkin_line.py: GherkinLine.table_cells, GherkinLine.split_table_cells"]}
{"id": "C08", "title": "Cell columns point at the cell text", "statement": "The column reported for each table cell is the 1-based position in the physical line of the first character of the (escaped) cell text.", "quantifier": "every table row with every indentation, padding and escape", "why_tests_cant": "positions under escaping for all rows", "anchors": ["packages/gurke/src/gurke/gherkin_line.py: GherkinLine.table_cells"]}
{"id": "C09", "title": "Tags round-trip with exact columns", "statement": "A line consisting of @-prefixed names without whitespace or @, separated by blanks and optionally followed by a blank and a # comment, yields exactly these names in order, each with the 1-based column of its @.", "quantifier": "every list of tag names, separators, indentation and trailing comment", "why_tests_cant": "all strings and all spacings", "anchors": ["packages/gurke/src/gurke/gherkin_line.py: GherkinLine.tags"]}
{"id": "C10", "title": "Malformed lines are reported as parser errors", "statement": "A malformed line (a tag with whitespace, a table row ending in an unpaired backslash) makes parse raise a parser error that names the line, not an unrelated Python error.", "quantifier": "every malformed tag line or table row", "why_tests_cant": "exceptions escape only on rare inputs no test exercises", "anchors": ["packages/gurke/src/gurke/gherkin_line.py: GherkinLine.tags, split_table_cells", "packages/gurke/src/gurke/errors.py: ParserException.__init__", "packages/gurke/src/gurke/parser.py: handle_external_error"]}
{"id": "C11", "title": "Doc strings keep their content", "statement": "The content of a doc string is the lines between the separators joined with LF, each without its line end and without the indentation of the opening separator, with the escaped separator unescaped; nothing inside a doc string (keywords, tags, tables, comments, blank lines, the other separator) is interpreted.", "quantifier": "every content, every indentation, both separators, every media type", "why_tests_cant": "contents are arbitrary strings", "anchors": ["packages/gurke/src/gurke/token_matcher.py: match_DocStringSeparator, match_Other, _unescaped_docstring", "packages/gurke/src/gurke/gherkin_line.py: get_line_text"]}
{"id": "C12", "title": "Step keyword recognition and type", "statement": "A step line is recognised with the first listed keyword that prefixes it; the keyword type is Context, Action, Outcome or Conjunction when the keyword belongs to exactly one such list and Unknown otherwise, for every language.", "quantifier": "every line, every language", "why_tests_cant": "all lines in 79 languages", "anchors": ["packages/gurke/src/gurke/token_matcher.py: match_StepLine, _change_dialect", "packages/gurke/src/gurke/gherkin-languages.json"]}
{"id": "C13", "title": "Every step keyword of every language is usable", "statement": "A line starting with a step keyword of the language is recognised as a step with that keyword.", "quantifier": "every language and every one of its step keywords, every step text", "why_tests_cant": "all keywords of all languages against all texts", "anchors": ["packages/gurke/src/gurke/token_matcher.py: match_StepLine", "packages/gurke/src/gurke/gherkin-languages.json"]}
{"id": "C14", "title": "Line kinds are mutually exclusive", "statement": "In every supported language a line is at most one of: blank, comment, tag line, table row, doc string separator, feature, rule, background, scenario, examples line, step; so the outcome does not depend on the order in which the parser tries them.", "quantifier": "every line in every language", "why_tests_cant": "quantifies over all strings for all keyword tables", "anchors": ["packages/gurke/src/gurke/token_matcher.py: TokenMatcher.match_*", "packages/gurke/src/gurke/gherkin-languages.json"]}
{"id": "C15", "title": "The language header selects the dialect", "statement": "If the first significant line is \"# language: xx\" with a supported xx, the whole document is read with the keywords of xx and the feature reports language xx; the matcher returns to its default language on the next parse.", "quantifier": "every supported language, every document, every spelling of the header with blanks", "why_tests_cant": "all languages, all documents, and histories of parses", "anchors": ["packages/gurke/src/gurke/token_matcher.py: match_Language, _change_dialect, reset"]}
{"id": "C16", "title": "An unsupported language is reported", "statement": "If the first significant line names an unsupported language, parse raises a CompositeParserException whose first error is \"Language not supported\" at that line.", "quantifier": "every text whose first line is a header naming an unsupported language", "why_tests_cant": "all unsupported names and all continuations", "anchors": ["packages/gurke/src/gurke/token_matcher.py: _change_dialect", "packages/gurke/src/gurke/errors.py: NoSuchLanguageException"]}
{"id": "C17", "title": "Error reports are bounded, distinct and located", "statement": "A CompositeParserException raised by parse has between 1 and 11 errors with pairwise distinct messages, and every error carries a line of the text (1..number of lines + 1) and, unless it is at the end of the text, a column; parse returns a document only if no error at all was found.", "quantifier": "every text", "why_tests_cant": "all texts, any number of faults", "anchors": ["packages/gurke/src/gurke/parser.py: add_error, handle_external_error, parse", "packages/gurke/src/gurke/errors.py"]}
{"id": "C18", "title": "A parser can be reused", "statement": "What a Parser/TokenMatcher returns for a text does not depend on the texts parsed before, whether they succeeded or failed, except that ids continue counting.", "quantifier": "every history of parse calls, every text", "why_tests_cant": "arbitrary histories including failures inside doc strings", "anchors": ["packages/gurke/src/gurke/parser.py: Parser.parse", "packages/gurke/src/gurke/ast_builder.py: reset", "packages/gurke/src/gurke/token_matcher.py: reset"]}
{"id": "C19", "title": "Comments are collected verbatim", "statement": "The comments of a returned document are exactly the lines beginning with # outside doc strings, except the language header, in order, verbatim without their line end, at column 1 of their line.", "quantifier": "every accepted text", "why_tests_cant": "all placements of comments", "anchors": ["packages/gurke/src/gurke/ast_builder.py: build", "packages/gurke/src/gurke/token_matcher.py: match_Comment"]}
{"id": "C20", "title": "Tables are rectangular", "statement": "In a returned document all rows of a data table have equally many cells and every examples row has as many cells as its header; a ragged table makes parse raise an error at the first offending row.", "quantifier": "every accepted text, every table", "why_tests_cant": "all tables", "anchors": ["packages/gurke/src/gurke/ast_builder.py: ensure_cell_count, get_table_rows"]}
{"id": "C21", "title": "One pickle per scenario or example row, in document order", "statement": "compile yields one pickle for each scenario without examples and one for each body row of each examples table with a header, in document order, feature-level scenarios before those of rules, and nothing else.", "quantifier": "every document", "why_tests_cant": "all documents", "anchors": ["packages/gurke/src/gurke/pickles/compiler.py: Compiler.compile, _compile_scenario, _compile_scenario_outline, _compile_rule"]}
{"id": "C22", "title": "Pickle steps are background steps then own steps", "statement": "The steps of a pickle are, in order, the steps of the feature background, of the enclosing rule background, and of the scenario; a scenario without steps gives a pickle without steps. A rule background never leaks into another rule.", "quantifier": "every document", "why_tests_cant": "all nestings and orders of backgrounds and rules", "anchors": ["packages/gurke/src/gurke/pickles/compiler.py: Compiler._compile_scenario, _compile_rule"]}
{"id": "C23", "title": "Tags are inherited", "statement": "The tags of a pickle are the tags of the feature, the rule, the scenario and the examples table it comes from, in that order, each pointing to its tag in the document.", "quantifier": "every document", "why_tests_cant": "all nestings", "anchors": ["packages/gurke/src/gurke/pickles/compiler.py: _pickle_tags"]}
{"id": "C24", "title": "Placeholders are replaced by cell values", "statement": "If no header of the examples table contains a regular-expression metacharacter, each <header> in step texts, scenario names, table cells and doc strings is replaced by the cell value literally (backslashes, group references and newlines in the value have no effect), headers being processed left to right; text without placeholders is unchanged.", "quantifier": "every template text, header and value", "why_tests_cant": "values are used as regex replacement templates: all strings must be checked", "anchors": ["packages/gurke/src/gurke/pickles/compiler.py: _interpolate, _create_pickle_arguments"]}
{"id": "C25", "title": "Placeholder names are taken literally", "statement": "Also a header containing regular-expression metacharacters only replaces the literal text <header> and never makes compile fail.", "quantifier": "every header", "why_tests_cant": "headers are used as regex patterns without escaping", "anchors": ["packages/gurke/src/gurke/pickles/compiler.py: _interpolate"]}
{"id": "C26", "title": "And/But steps take the type of the step before", "statement": "The type of a pickle step is its own keyword type, or, for And/But, the type of the nearest preceding step that is not And/But, or Unknown if there is none.", "quantifier": "every sequence of steps, in scenarios and outlines", "why_tests_cant": "all sequences", "anchors": ["packages/gurke/src/gurke/pickles/compiler.py: _compile_scenario, _compile_scenario_outline"]}
{"id": "C27", "title": "Pickles refer to existing document nodes and have unique ids", "statement": "All pickle and pickle-step ids are distinct; every astNodeId of a pickle names an element of the compiled document, namely its scenario, step, tag or example row.", "quantifier": "every document returned by parse", "why_tests_cant": "all documents", "anchors": ["packages/gurke/src/gurke/pickles/compiler.py: Compiler", "packages/gurke/src/gurke/stream/id_generator.py"]}
{"id": "C28", "title": "Compiling a parsed document never fails", "statement": "compile raises no KeyError or IndexError on any document returned by parse; with metacharacter-free headers it raises nothing at all.", "quantifier": "every document returned by parse", "why_tests_cant": "relies on an invariant (rectangular tables, present fields) established in another module", "anchors": ["packages/gurke/src/gurke/pickles/compiler.py: Compiler.compile, _interpolate"]}
{"id": "C29", "title": "Building a Robot model never raises", "statement": "build_gherkin_model returns a Robot file for every file content; if parsing or compiling fails the file consists of one comment section with one error per parser error (or one error naming the Python exception), located at the line of the error.", "quantifier": "every content of a .feature or .feature.md file", "why_tests_cant": "all contents", "anchors": ["src/GherkinParser/gherkin_builder.py: build_gherkin_model"]}
{"id": "C30", "title": "One Robot test per pickle, one keyword call per pickle step", "statement": "The Robot file has exactly one test per pickle, in order; its keyword calls are the pickle steps in order, each called with keyword text followed by step text (step text alone for type Unknown) and located at the line and column of the step; the test is located at its scenario.", "quantifier": "every accepted feature file", "why_tests_cant": "all documents", "anchors": ["src/GherkinParser/gherkin_builder.py: build_gherkin_model, find_ast_node_id"]}
{"id": "C31", "title": "Node lookup by id is exact", "statement": "find_ast_node_id returns the element with the given id and the mapping that contains it whenever the document has such an element with a unique id, and (None, None) otherwise.", "quantifier": "every document and every id", "why_tests_cant": "all trees", "anchors": ["src/GherkinParser/gherkin_builder.py: find_ast_node_id"]}
{"id": "C32", "title": "Tests get all their tags, without the @", "statement": "The suite-level test tags are the feature tags; the tags set on a test are the remaining tags of its pickle in order; both without the leading @; together they are exactly the tags of the pickle.", "quantifier": "every accepted feature file", "why_tests_cant": "all documents", "anchors": ["src/GherkinParser/gherkin_builder.py: build_gherkin_model"]}
{"id": "C33", "title": "Test names of example rows carry the row values", "statement": "For a pickle of an examples row, the Robot test name is the interpolated scenario name followed by \" header = value\" for each column.", "quantifier": "every examples row in every language", "why_tests_cant": "all rows, all languages", "anchors": ["src/GherkinParser/gherkin_builder.py: build_gherkin_model"]}
{"id": "C34", "title": "Argument escaping is undone by Robot Framework", "statement": "Robot Framework unescaping of escape(text) gives back text, escape(text) never contains two adjacent blanks, a raw newline or tab or an unescaped = sign, and escape is injective.", "quantifier": "every string", "why_tests_cant": "escape layers interact on backslashes, = and blanks: all strings must be checked", "anchors": ["src/GherkinParser/gherkin_builder.py: escape, escape_whitespace"]}
{"id": "C35", "title": "Doc strings and tables reach keywords intact", "statement": "The argument built for a doc string or data table, unescaped and read as a Python literal, is exactly the doc string content and media type, or the table cell values, of the pickle.", "quantifier": "every doc string and every table", "why_tests_cant": "double quoting (repr of repr) of arbitrary strings", "anchors": ["src/GherkinParser/gherkin_builder.py: build_gherkin_model, escape"]}
{"id": "C36", "title": "Resource files are imported completely and deterministically", "statement": "The suite imports exactly the files below the feature file directory whose name ends in .resource and whose stem does not start with _ or ., each once, in sorted order of their relative path, independent of the order in which the file system lists directories.", "quantifier": "every directory tree and every listing order", "why_tests_cant": "all trees, all listing orders", "anchors": ["src/GherkinParser/gherkin_builder.py: build_gherkin_model", "src/GherkinParser/glob_path.py: iter_files"]}
{"id": "C37", "title": "Glob patterns match what they say", "statement": "**/*.ext matches exactly the paths ending in .ext, **/*.{a,b} exactly those ending in .a or .b; a pattern of ordinary characters matches exactly itself; * never crosses /, ? matches one character.", "quantifier": "every path, every pattern of the supported syntax", "why_tests_cant": "all paths and patterns", "anchors": ["src/GherkinParser/glob_path.py: _glob_pattern_to_re, Pattern.matches"]}
{"id": "C38", "title": "File iteration is exact", "statement": "iter_files yields exactly the non-directory entries below the given directory that match one of the patterns and that neither match an ignore pattern nor lie below an ignored directory, each once; unreadable directories contribute nothing and stop nothing else.", "quantifier": "every directory tree, every pattern and ignore list", "why_tests_cant": "all trees", "anchors": ["src/GherkinParser/glob_path.py: iter_files"]}
{"id": "C39", "title": "Hooks run before the setup of a suite or test", "statement": "At suite/test start, when there is no teardown (see C40) and the existing setup does not use the word AND as an argument, every keyword tagged hook:before-suite or hook:before-feature (hook:before-test) is prepended, in order, to the existing setup, which still runs with its own arguments.", "quantifier": "every set of keywords and tags, every existing setup and teardown", "why_tests_cant": "all combinations of hooks, setups and teardowns", "anchors": ["src/GherkinParser/Library.py: Library._create_setup_and_teardown, yield_hooks"]}
{"id": "C40", "title": "An existing teardown survives hooks", "statement": "When hooks exist, an existing teardown still runs as teardown, and the setup is not affected by the teardown.", "quantifier": "every suite or test with a teardown", "why_tests_cant": "branch that is wrong only when a teardown and hooks are both present", "anchors": ["src/GherkinParser/Library.py: Library._create_setup_and_teardown"]}
{"id": "C41", "title": "A failing hook stops hook calling and is reported", "statement": "call_hooks runs matching hook keywords in order, stops after the first that fails, and its failure reaches the caller.", "quantifier": "every sequence of hook keywords and outcomes", "why_tests_cant": "control flow of break inside finally", "anchors": ["src/GherkinParser/Library.py: Library.call_hooks"]}
{"id": "C42", "title": "The event stream is faithful", "statement": "For every source event, GherkinEvents yields source, document and pickles as selected by the options when parsing succeeds, and exactly one parseError event per parser error otherwise; ids never repeat over the whole stream.", "quantifier": "every sequence of sources and every option setting", "why_tests_cant": "ids are shared between parser and compiler over unbounded streams", "anchors": ["packages/gurke/src/gurke/stream/gherkin_events.py: GherkinEvents.enum"]}
{"id": "C43", "title": "Markdown: lookahead keeps the line order", "statement": "Also with the Markdown matcher tokens are processed in line order.", "quantifier": "every Markdown text", "why_tests_cant": "depends on lines that are both tag and title lines", "anchors": ["packages/gurke/src/gurke/token_matcher_markdown.py", "packages/gurke/src/gurke/parser.py: lookahead_1"]}
{"id": "C44", "title": "Markdown: title and step lines", "statement": "In Markdown, a header line of 1-6 # and one blank followed by keyword and colon is recognised with exactly that keyword and the trimmed rest as name, a bullet line with a step keyword as step; the reported column is the position of the keyword.", "quantifier": "every line", "why_tests_cant": "regular-expression matching over all strings", "anchors": ["packages/gurke/src/gurke/token_matcher_markdown.py: _match_title_line"]}
{"id": "C45", "title": "Markdown: exactly one feature line", "statement": "In a Markdown document the first line that is not a tag line is the feature line, whatever it contains, and no later line is a feature line.", "quantifier": "every Markdown text", "why_tests_cant": "history dependent matcher state", "anchors": ["packages/gurke/src/gurke/token_matcher_markdown.py: match_FeatureLine"]}
{"id": "C46", "title": "Markdown: table separator rows are not data", "statement": "A GFM separator row is never a table row, and every other row starting with | after at most five blanks is one, with the same cells as in classic Gherkin.", "quantifier": "every line", "why_tests_cant": "all strings", "anchors": ["packages/gurke/src/gurke/token_matcher_markdown.py: match_TableRow, _is_gfm_table_separator"]}
{"id": "C47", "title": "Descriptions are kept verbatim", "statement": "The description of a feature, rule, background, scenario or examples block is the text from its first non-blank line up to the last non-empty line before the next line that ends a description there (comment, tag, title, and steps or table rows where these may follow) or the end of the text, lines joined by LF, verbatim except for line ends. (A line of white space only at the end is kept.)", "quantifier": "every description block", "why_tests_cant": "all texts, all positions of blank lines", "anchors": ["packages/gurke/src/gurke/ast_builder.py: transform_node (Description)", "packages/gurke/src/gurke/token_matcher.py: match_Other"]}
{"id": "C48", "title": "CRLF and LF texts parse alike", "statement": "Replacing every LF of a text by CR LF changes neither the outcome of parse (the same errors with the same messages and places) nor the returned document. The same for files, which are read with universal newlines.", "quantifier": "every text, language and error mode, default (classic) matcher; files: every text without CR, both matchers", "why_tests_cant": "all texts", "anchors": ["packages/gurke/src/gurke/token_scanner.py: TokenScanner.read", "packages/gurke/src/gurke/token_matcher.py: _set_token_matched"]}
{"id": "C49", "title": "A directory suite collects exactly its feature files", "statement": "collect_gherkin_suites builds exactly the files below the directory whose name ends in .feature or .feature.md, each once.", "quantifier": "every directory tree", "why_tests_cant": "all trees, all names", "anchors": ["src/GherkinParser/gherkin_builder.py: collect_gherkin_suites", "src/GherkinParser/glob_path.py: iter_files"]}
{"id": "C50", "title": "CRLF and LF texts parse alike in Markdown", "statement": "Replacing every LF of a text by CR LF changes neither the outcome of a parse with the Markdown matcher nor the returned document. (The code meets this only up to the column of the feature: a blank first line becomes the feature line and its column counts the line end.)", "quantifier": "every text, language and error mode, Markdown matcher", "why_tests_cant": "all texts", "anchors": ["packages/gurke/src/gurke/token_matcher_markdown.py: match_FeatureLine", "packages/gurke/src/gurke/token_matcher.py: _set_token_matched"]}
{"id": "C51", "title": "Markdown: prose does not change how the steps after it are read", "statement": "In a Markdown document, lines of prose (code fences included) between a header and its steps never change what the steps after them mean: the steps, their tables and their doc strings are those of the document without the prose. (The code does not meet this: the matcher treats a code fence in prose as an opened doc string, so a later doc string is lost.)", "quantifier": "every Markdown text and every run of prose lines in it", "why_tests_cant": "the matcher's state depends on all the lines before", "anchors": ["packages/gurke/src/gurke/token_matcher_markdown.py: match_Empty", "packages/gurke/src/gurke/token_matcher_markdown.py: match_DocStringSeparator"]}
{"id": "C52", "title": "Markdown: which lines are tag lines, and their tags", "statement": "With the Markdown matcher a line is a tag line exactly when it contains a back quote, an @, at least one character that is no back quote, and a back quote; its tags are the leftmost, non-overlapping such pieces without their back quotes, each with the column of its @, counted from 1 at the beginning of the line.", "quantifier": "every line and every matcher state", "why_tests_cant": "all lines", "anchors": ["packages/gurke/src/gurke/token_matcher_markdown.py: match_TagLine"]}
{"id": "C53", "title": "Stopping at the first error reports the first error", "statement": "With stop_at_first_error a Parser returns the same document as without, or raises the first of the errors that are collected without it (same kind, message and line, and the same column unless it is an unsupported language: C60), or the same Python error of C01, for the classic and the Markdown matcher.", "quantifier": "every text, every supported default language, both matchers", "why_tests_cant": "the two modes run different code paths after every match attempt, lookahead and builder action; agreement must hold at every point where the first error can occur", "anchors": ["packages/gurke/src/gurke/parser.py: Parser.stop_at_first_error, handle_external_error, add_error, match_token_at_N"]}
{"id": "C54", "title": "Every document can be written down and read back", "statement": "The features Parser.parse returns are, ids and locations aside, exactly those that satisfy a list of conditions on names, tags, keywords, descriptions, cells and doc strings; each of them can be written as a canonical Gherkin text that parses to the same feature, without comments, whatever the default language. So writing what was parsed and parsing it again loses nothing but ids, locations and comments, and writing it again gives the same text.", "quantifier": "every text, every supported default language, every feature", "why_tests_cant": "the writer must undo every reading rule (escaping of cells and doc string separators, keyword selection, description ends, tag and row trimming) for every document in all languages; a sample cannot show that no accepted document is changed by a round trip", "anchors": ["packages/gurke/src/gurke/parser.py: Parser.parse", "packages/gurke/src/gurke/gherkin_line.py: table_cells, split_table_cells, tags", "packages/gurke/src/gurke/token_matcher.py: match_StepLine, match_DocStringSeparator, _unescaped_docstring", "packages/gurke/src/gurke/ast_builder.py: transform_node"]}
{"id": "C55", "title": "A step argument is one Robot Framework variable", "statement": "The argument built for a doc string or data table is, from its first to its last character, one Robot Framework dictionary variable, and the variables Robot Framework finds inside it are exactly those the user's texts contain.", "quantifier": "every doc string and every table", "why_tests_cant": "the search for the closing brace counts braces across repr, escaping and the user's text; texts with braces are arbitrary", "anchors": ["src/GherkinParser/gherkin_builder.py: build_gherkin_model, escape"]}
{"id": "C56", "title": "Simple arguments do not depend on unescaping", "statement": "If the texts of a doc string or data table have no quotes, backslashes, equals signs, control characters or adjacent blanks, the expression inside the argument is the Python literal of its value both with and without Robot Framework's unescaping.", "quantifier": "every doc string and every table without such characters", "why_tests_cant": "which characters repr and escape leave alone must be known for every string", "anchors": ["src/GherkinParser/gherkin_builder.py: build_gherkin_model, escape"]}
{"id": "C57", "title": "The command line program prints every event", "statement": "python -m gurke prints every event of the stream (C42) as JSON and ends as the stream ends.", "quantifier": "every list of sources and all options", "why_tests_cant": "whether a value can be written as JSON depends on what every document, pickle and error of every source contains", "anchors": ["packages/gurke/src/gurke/__main__.py", "packages/gurke/src/gurke/stream/source_events.py: source_event", "packages/gurke/src/gurke/stream/gherkin_events.py: GherkinEvents.enum, create_errors", "packages/gurke/src/gurke/location.py: Location"]}
{"id": "C58", "title": "Error messages say what is wrong and where", "statement": "Every error of a parse is one of four, with a fixed wording that begins with (line:column): an unexpected line, listing kinds of lines none of which the line is in the language so far, and quoting the line; an unexpected end of the file, at the line after the last; a table row with a wrong number of cells, at that row; an unsupported language, with its name, at its header (for the location's column see C60).", "quantifier": "every text, every supported default language, both modes", "why_tests_cant": "each of the parser's states has its own hand-listed message and any line can meet any state", "anchors": ["packages/gurke/src/gurke/errors.py", "packages/gurke/src/gurke/parser.py: match_token_at_*, expected_tokens", "packages/gurke/src/gurke/ast_builder.py: ensure_cell_count", "packages/gurke/src/gurke/token_matcher.py: _change_dialect"]}
{"id": "C59", "title": "The list of expected kinds is exact", "statement": "When a line or the end of the file is reported as unexpected, the kinds of lines listed as expected are the ones accepted at that place: any line of a listed kind put there is not unexpected, whatever follows it, and any line of none of the listed kinds put there is unexpected with the same list.", "quantifier": "every text with such an error, every replacement line and every continuation, every supported language", "why_tests_cant": "the list is written out by hand for each state, and which state is reached after tag lines depends on an unbounded look ahead into the lines that follow", "anchors": ["packages/gurke/src/gurke/parser.py: match_token_at_*, lookahead_0, lookahead_1, expected_tokens", "packages/gurke/src/gurke/errors.py: UnexpectedTokenException, UnexpectedEOFException"]}
{"id": "C60", "title": "An error's location is the place its message shows", "statement": "The message of every reported error begins with (line:column) of the error's own location, with column 0 where the location has none.", "quantifier": "every text, both matchers, both error modes, every error of the report", "why_tests_cant": "the location of an error is a mutable object that later matching of the same token may change, so the agreement depends on everything that happens after the error was made", "anchors": ["packages/gurke/src/gurke/errors.py: ParserException, NoSuchLanguageException", "packages/gurke/src/gurke/token_matcher.py: match_Language, _set_token_matched", "packages/gurke/src/gurke/parser.py: add_error, handle_external_error"]}
{"id": "C61", "title": "Pickles depend only on what a document says", "statement": "Two documents with the same language, tag names, scenario names, step types, texts and arguments, and examples headers and rows, arranged alike, compile to the same pickles up to ids, or fail with the same exception; ids, places, comments, descriptions, keywords, doc string delimiters and the names of features, rules, backgrounds and examples have no influence, nor has the state of the id generator. Writing an accepted feature text anew does not change its pickles.", "quantifier": "every pair of documents, every state of the id generators; every accepted text", "why_tests_cant": "a universally quantified non-interference statement over pairs of documents", "anchors": ["packages/gurke/src/gurke/pickles/compiler.py: Compiler.compile, _compile_scenario, _compile_scenario_outline, _interpolate"]}
{"id": "C62", "title": "Reformatting a feature file does not change its Robot tests", "statement": "Two feature files whose features are equal up to ids, places and comments (different indentation, line ends, table padding, comments, or one of them Markdown) give suites with the same documentation, metadata, tags, resources and tests with the same names, documentation, tags, keyword calls and arguments (only positions differ), or the same error report.", "quantifier": "every pair of file names and contents, every directory, every notion of printable character", "why_tests_cant": "relates the results for all pairs of equivalent texts; the builder finds the elements of a test through ids, which differ between the files", "anchors": ["src/GherkinParser/gherkin_builder.py: build_gherkin_model, find_ast_node_id", "packages/gurke/src/gurke/pickles/compiler.py: Compiler.compile"]}
{"id": "C63", "title": "Empty lines, comments and indentation between elements do not change a feature", "statement": "Take a text the parser accepts with a feature, and change it only by adding or removing empty lines and comments (other than the language header) before the lines on which the language header, tags, keyword lines, steps, table rows and doc strings begin, and at the end, and by indenting those lines differently (doc strings excepted: their indentation is part of the document). Then the new text is accepted as well, and its feature is the same up to ids and places; for a feature file the Robot suite is the same up to positions.", "quantifier": "every text, every layout of it, every supported default language, both error modes", "why_tests_cant": "relates the parses of all pairs of texts with the same layout-free content; inserted lines interact with descriptions, tag look-ahead, tables, doc strings and the header", "anchors": ["packages/gurke/src/gurke/parser.py: Parser.parse, match_token_at_*", "packages/gurke/src/gurke/token_matcher.py: TokenMatcher", "src/GherkinParser/gherkin_builder.py: build_gherkin_model"]}
{"id": "C64", "title": "Tests and keyword calls carry the position of their source", "statement": "In the Robot suite built from a classic feature file every test has the line and column at which its scenario's keyword stands in the file, with only white space before it, and every keyword call those of its step's keyword; for scenarios without examples the test name and the call text are what stands there after the keyword, stripped.", "quantifier": "every file name that is not Markdown, every content and directory, every test and call of the suite", "why_tests_cant": "must hold for every content: positions travel from the matcher through the document, and the builder finds them by id lookup", "anchors": ["src/GherkinParser/gherkin_builder.py: build_gherkin_model", "packages/gurke/src/gurke/token_matcher.py: _set_token_matched", "packages/gurke/src/gurke/ast_builder.py: get_location"]}
{"id": "C65", "title": "Adding a scenario or a rule at the end of a feature file only adds its tests", "statement": "Append to a text the parser accepts with a feature (its last line ended) lines that stand for a scenario or a rule in the feature's language. The longer text is accepted; its document is the old one with that scenario (in the last rule, if there are rules) or rule added at the end, comments appended, everything else, places included, unchanged. Its pickles are the old ones followed by one per new scenario or examples row (ids aside), and the Robot suite has the old tests, then the new ones. The compiler can fail anew only if a new column name is not a plain word. In particular the text of any scenario or rule of any accepted file in the same language can be appended.", "quantifier": "every text, every appended scenario or rule, every supported language, both error modes", "why_tests_cant": "relates the results for all pairs of a text and an extension; how the last lines of the old text are read depends on what follows them (descriptions, tag look-ahead, open tables), and ids shift", "anchors": ["packages/gurke/src/gurke/parser.py: Parser.parse, Parser.lookahead_0", "packages/gurke/src/gurke/pickles/compiler.py: Compiler.compile", "src/GherkinParser/gherkin_builder.py: build_gherkin_model"]}
{"id": "C66", "title": "The token listing says what each line is", "statement": "Parser(TokenFormatterBuilder()).parse(text) returns, for a text it accepts, one entry per line in order and then EOF. The entry of a line has its number, the column of its first visible character (1 for blank lines, comments, descriptions and doc string content), its kind, keyword, text and items; a title, step, tag, table or doc string line has the entry of that form, a line after a title that does not end the description is Other, a line in a doc string is Other with its unescaped content until the separator returns, and the language header changes the keywords. Entries are determined by the lines. Every text that stands for a document (tables may be ragged) is listed, and a listed text is accepted by the ordinary parser or fails only with inconsistent cell counts.", "quantifier": "all texts, all supported default languages, stopping at the first error or not", "why_tests_cant": "The kind of a line depends on all lines before it and on 80 languages; tests compare a few listings", "anchors": ["packages/gurke/src/gurke/token_formatter_builder.py: TokenFormatterBuilder", "packages/gurke/src/gurke/parser.py: Parser.parse", "packages/gurke/src/gurke/token_matcher.py: TokenMatcher"]}
{"id": "C67", "title": "The message of several errors can be taken apart", "statement": "When Parser.parse (classic matcher, not stopping at the first error) raises a CompositeParserException, its message is the heading 'Parser errors:' followed by the messages of its errors, one per line in order; no message contains a line feed, so cutting the message at line feeds gives back exactly the heading and the messages.", "quantifier": "all texts that fail to parse, all supported default languages", "why_tests_cant": "Messages quote arbitrary lines of the text; a quoted line feed anywhere would break the report", "anchors": ["packages/gurke/src/gurke/errors.py: CompositeParserException", "packages/gurke/src/gurke/parser.py: Parser.parse"]}
{"id": "C69", "title": "The messages can be read back by the names of their fields", "statement": "A reader that looks fields up by their names in the Cucumber message format (id, location, name, keyword, keywordType, text, dataTable, docString, rows, cells, value, content, mediaType, delimiter, description, steps, examples, tableHeader, tableBody, tags, children, background, scenario, rule, feature, comments, language, astNodeIds, astNodeId, type, argument, uri, data, parseError, source, message) recovers from the dictionary of every event - source, document, pickle or parse error - exactly the event; different events have different dictionaries.", "quantifier": "all documents, pickles, sources and errors (any texts, any nesting, optional fields present or absent)", "why_tests_cant": "Each optional field doubles the shapes of a dictionary; tests compare a few golden files.", "anchors": ["packages/gurke/src/gurke/ast_builder.py: AstBuilder.transform_node", "packages/gurke/src/gurke/pickles/compiler.py: Compiler", "packages/gurke/src/gurke/stream/gherkin_events.py: GherkinEvents.enum, create_errors", "packages/gurke/src/gurke/stream/source_events.py"]}
{"id": "C68", "title": "A Markdown feature is read like the classic feature it stands for", "statement": "Take a Markdown feature file and the classic file with the same number of lines obtained by dropping the hashes of the headers, the bullets of the steps and the backticks of the tags, keeping table rows and doc strings as they are, and emptying prose lines (a rule of dashes below a table header becomes an empty comment). Parsing the first with the Markdown matcher and the second with the classic matcher either succeeds for both, and then the two documents have the same feature, tags, rules, background, scenarios, steps, tables, doc strings, examples, names, keywords, ids and line numbers, or fails for both.", "quantifier": "all supported languages, all pairs of texts of any length related line by line in this way (prose anywhere after the feature header, any placement of tags, tables and doc strings allowed by the relation, including texts both parsers reject), both error modes", "why_tests_cant": "the two matchers are separate implementations (regular expressions with side effects against prefix tests) driven by one parser with lookahead; agreement has to hold for every sequence of lines", "anchors": ["packages/gurke/src/gurke/token_matcher_markdown.py:GherkinInMarkdownTokenMatcher", "packages/gurke/src/gurke/token_matcher.py:TokenMatcher", "packages/gurke/src/gurke/parser.py:Parser.parse", "packages/gurke/src/gurke/ast_builder.py:AstBuilder"]}
{"id": "C70", "title": "A Markdown feature file gives the Robot suite of the classic file it stands for", "statement": "When the lines of name.feature.md stand, one by one, for the lines of a classic feature file (hashes, bullets and backticks dropped, prose emptied, table rules turned into comments) and no step begins with a star instead of Given, When, Then, And or But, building a Robot Framework suite from either file gives the same suite: documentation, library, resources, tags, and the same tests with the same names, documentation, tags, line numbers and keyword calls with the same names, arguments and line numbers; or neither file gives a suite.", "quantifier": "all pairs of file names (one with the suffix .md, one without), all pairs of texts of any length related in this way, all directories, all notions of printable characters", "why_tests_cant": "it relates two matchers, the parser, the compiler and the search for nodes by id in the builder, for every sequence of lines", "anchors": ["src/GherkinParser/gherkin_builder.py:build_gherkin_model", "packages/gurke/src/gurke/token_matcher_markdown.py:GherkinInMarkdownTokenMatcher", "packages/gurke/src/gurke/pickles/compiler.py:Compiler"]}
{"id": "C71", "title": "A suite is named after its feature", "statement": "Parsing a feature file for Robot Framework gives a suite whose source is that file. For a classic file its name is what stands after the keyword and colon of the feature line, without the white space around it; for a Markdown file it is the title of the first line without a tag. When the file gives errors instead of a suite the name is empty.", "quantifier": "all file paths, all contents of any length, all directories around the file", "why_tests_cant": "it depends on where the feature line is found in an arbitrary text by either matcher", "anchors": ["src/GherkinParser/gherkin_parser.py:GherkinParser.parse", "src/GherkinParser/gherkin_builder.py:build_gherkin_model"]}
{"id": "C72", "title": "A directory suite gets one child suite per feature file", "statement": "When the GherkinRunner visitor meets the suite of a directory, the suite keeps its children and gets, after them, one child suite for every .feature and .feature.md file in the directory or below it, and no other; suites that are not directories are left alone.", "quantifier": "all directory trees (finite, of any depth), all contents of the files, all lists of children", "why_tests_cant": "it quantifies over all directory trees and file contents", "anchors": ["src/GherkinParser/gherkin_builder.py:GherkinRunner.start_suite", "src/GherkinParser/gherkin_builder.py:collect_gherkin_suites"]}
{"id": "C73", "title": "Formatting replaces the whole document", "statement": "Formatting a document in the VS Code extension gives one edit; applying it leaves exactly the formatted text, nothing of the old one before or after it. When no document can be made of the text, there is no edit.", "quantifier": "all texts of any length with line ends LF or CRLF (also mixed), all formatters", "why_tests_cant": "the range is computed by splitting the text at line ends; that it reaches the end must hold for every text", "anchors": ["vscode-client/formattingEditProvider.ts:GherkinFormattingEditProvider"]}
{"id": "C74", "title": "Locations in Markdown documents", "statement": "Every element of an accepted Markdown document is located at the line of the text that introduced it: the column is that of the keyword after the header marks or the bullet (for tags and cells their own column, for rows and doc strings the first visible character), and keyword, name, step type, tags, cells, delimiter and media type are those of that line. Descriptions and doc strings consist of lines of the text. The language of the feature is that of the matcher.", "quantifier": "all Markdown texts, all supported languages, both error modes, all elements of the document", "why_tests_cant": "the lookahead may hand lines over out of order (C43); that each element still has the place and the words of one and the same line must hold for every text", "anchors": ["packages/gurke/src/gurke/ast_builder.py:AstBuilder.transform_node", "packages/gurke/src/gurke/token_matcher_markdown.py:GherkinInMarkdownTokenMatcher", "packages/gurke/src/gurke/parser.py:Parser.parse"]}
{"id": "C75", "title": "Positions in the suite of a Markdown file", "statement": "In a Robot suite built from a Markdown file, every test is placed where the keyword of its scenario header stands in the file, and every keyword call where the keyword of its step stands: the characters before that column are exactly the header marks or the bullet. The call begins with that keyword; without examples, test and call have the name and text of that line.", "quantifier": "all file names with the Markdown suffix, all contents, directory inits or not, all tests and calls", "why_tests_cant": "positions pass through matcher, AST, pickles and builder; tests look at a few files", "anchors": ["src/GherkinParser/gherkin_builder.py:build_gherkin_model", "packages/gurke/src/gurke/token_matcher_markdown.py:GherkinInMarkdownTokenMatcher", "packages/gurke/src/gurke/pickles/compiler.py:Compiler"]}
{"id": "C76", "title": "Emptying the reported lines repairs the text", "statement": "If a text is refused with at most ten errors (so that the whole text was read) and every line that is reported as unexpected is made blank, nothing else being changed, then parsing the new text reports exactly the remaining errors (end of file, ragged tables, unsupported languages), with the same messages and places and in the same order; if no others were reported, the new text is accepted.", "quantifier": "every supported default language, every text refused with at most ten errors, and every text that differs from it only in that the lines reported as unexpected are blank (classic files)", "why_tests_cant": "needs all texts and all combinations of wrong lines, including those where one wrong line between a tag and its scenario changes how later lines are read", "anchors": ["packages/gurke/src/gurke/parser.py: Parser.parse, add_error, match_token_at_0 and its siblings, lookahead_0, lookahead_1"]}
{"id": "C77", "title": "Scenarios and rules in the middle of a file change only their own tests", "statement": "Let a be a feature file whose last line is ended, and m and b texts that stand for scenarios and rules that can follow it, where b's scenarios belong to the same rules whether m stands before them or not. Then the document of a, m, b one after the other is a's feature with those of m and those of b, the latter exactly as after a alone but for their line numbers. The suite of a, m, b has exactly the tests of a (with the same positions), then the tests of m, one per scenario or row, exactly as in the suite of a, m, then exactly the tests of b, each with all its line numbers moved down by the number of lines of m; documentation, library, resources and tags of the suite are the same. It is a suite if that of a, b is one and m's column names are plain words; and if it is a suite, so is that of a, b.", "quantifier": "every supported default language (document), every classic file a, all texts m and b that stand for lists of scenarios and rules, every directory", "why_tests_cant": "needs every file and every place in it; the compiler numbers its ids through and inherits tags and background steps, the tests' positions pass through three stages", "anchors": ["packages/gurke/src/gurke/parser.py: Parser.parse", "packages/gurke/src/gurke/pickles/compiler.py: Compiler.compile", "src/GherkinParser/gherkin_builder.py: build_gherkin_model"]}
{"id": "C78", "title": "The newline at the end of the file", "statement": "A text whose last line does not end with a newline means the same with the newline added: the classic parser gives the same outcome, errors and document included; the Markdown parser too, unless the last line is blank and is itself the feature line (then exactly the column of the feature differs); and the Robot Framework suite is the same in every case.", "quantifier": "every non-empty text not ending with a newline, every language, both matchers, both error modes", "why_tests_cant": "all texts, including unterminated doc strings, tables, tags and comments in the last line", "anchors": ["packages/gurke/src/gurke/token_scanner.py: TokenScanner.read", "packages/gurke/src/gurke/gherkin_line.py: GherkinLine", "packages/gurke/src/gurke/token_matcher.py", "packages/gurke/src/gurke/token_matcher_markdown.py"]}
{"id": "C79", "title": "The tokens of a keyword call point at the step in the file", "statement": "All tokens of a keyword call built from a step are on the step's line; the keyword token begins where the step begins and every later token (each argument) begins where the keyword token ends. The columns the keyword token spans hold the name of the call in the file: for scenarios without examples this is so exactly when the line goes on with that name from the step's beginning, i.e. for steps whose type is not Unknown exactly when no white space stands between keyword and text.", "quantifier": "all feature files and Markdown feature files, all their steps", "why_tests_cant": "Positions depend on indentation, keyword, dialect and text of arbitrary lines; tests look at a few.", "anchors": ["src/GherkinParser/gherkin_builder.py:build_gherkin_model"]}
{"id": "C80", "title": "The order of scenarios changes only the order and lines of the tests", "statement": "If two groups of scenarios or rules that can follow the beginning of a feature file change places (in a way that no scenario comes under another rule), the suite is built all the same, has the same settings, and its tests are the same in the other order, moved to their new lines only.", "quantifier": "all feature files, all groups of scenarios and rules in them, all directories", "why_tests_cant": "Identifiers, line numbers and the compiler's state run through the whole file; tests cannot try all files.", "anchors": ["src/GherkinParser/gherkin_builder.py:build_gherkin_model", "packages/gurke/src/gurke/pickles/compiler.py:Compiler"]}
{"id": "C81", "title": "Markdown: rewording the prose changes nothing", "statement": "If only prose lines of a Markdown feature file (lines that are no header with a keyword, step, tag line, table row or doc string delimiter, after the feature header and outside doc strings) are replaced by other prose or empty lines, parsing has the same outcome, the document has the same content on the same lines, and the Robot suite is the same.", "quantifier": "all Markdown texts of the shape C68 describes, all ways of rewording their prose, all languages (suite: English, steps with word keywords)", "why_tests_cant": "Prose can be any text at any place; the Markdown matcher keeps state from line to line.", "anchors": ["packages/gurke/src/gurke/token_matcher_markdown.py:GherkinInMarkdownTokenMatcher", "src/GherkinParser/gherkin_builder.py:build_gherkin_model"]}
{"id": "C82", "title": "Markdown: what error messages say", "statement": "Every error reported for a Markdown file is one of three: a line refused with '(line:column): expected: NAMES, got 'TEXT'' where NAMES is a non-empty list without repetitions of known kinds, the line is of none of these kinds and TEXT is the stripped line; the end of the file with '(line:0): unexpected end of file, expected: NAMES' (never listing #EOF); or a table row at its place with 'inconsistent cell count within the table'. A language is never refused. The message of a composite error, cut at its line feeds, is the heading and the messages in order.", "quantifier": "all Markdown texts, all supported languages, both error modes", "why_tests_cant": "Any line of any text may be refused in any of the 41 states, and the lookahead may have touched it before.", "anchors": ["packages/gurke/src/gurke/errors.py:UnexpectedTokenException", "packages/gurke/src/gurke/parser.py:Parser", "packages/gurke/src/gurke/token_matcher_markdown.py:GherkinInMarkdownTokenMatcher"]}
{"id": "C83", "title": "Markdown: prose is never refused", "statement": "In a Markdown file, free text (a line that is no Background/Scenario/Examples/Rule header of the language, no bullet with a step keyword, no tag line, does not begin with a pipe and with no doc string fence) is accepted wherever it stands, in correct and in broken files: whenever a line is reported as unexpected, with errors collected or at the first error, that line is not free text.", "quantifier": "all Markdown texts, all supported languages, both error modes, all positions of the prose", "why_tests_cant": "Prose may stand in any of the parser's states, before and after errors, and may have been looked at by the lookahead before.", "anchors": ["packages/gurke/src/gurke/parser.py:Parser.parse", "packages/gurke/src/gurke/token_matcher_markdown.py:GherkinInMarkdownTokenMatcher.match_Empty"]}
{"id": "C84", "title": "An example row more or less is one test more or less", "statement": "Take a feature file that is a suite and leave out one line that is a row of an examples table (not the header): the rest is still a suite, and its tests are exactly the tests of the other rows and scenarios, with the same names, tags, documentation, calls and arguments, in the same order; only the line numbers below the removed line are one less. Put a row with as many cells after the header or a row of an examples table whose column names are plain words: the file is still a suite and it has exactly one test more, that of the new row. Likewise for the document: it differs in exactly that row.", "quantifier": "all classic feature files, all tables, all rows and places in the table, all file names, all languages", "why_tests_cant": "The row may stand anywhere in the file, in a rule, between comments, before any number of other tables, scenarios and rules; the ids and line numbers of everything after it change.", "anchors": ["packages/gurke/src/gurke/parser.py:Parser.parse", "packages/gurke/src/gurke/pickles/compiler.py:Compiler._compile_scenario_outline", "src/GherkinParser/gherkin_builder.py: build_gherkin_model"]}
{"id": "C85", "title": "A tag line above a scenario tags the tests of that scenario and no others", "statement": "Take a feature file that is a suite and put one line with tags directly before the title line of a scenario or scenario outline, wherever it stands (other tag lines, comments and blank lines may be above it): the file is still a suite with the same settings and as many tests, in the same order; the tests of that scenario - all its example rows - have these tags too, after the tags of their rule and scenario and before those of their examples; every test is otherwise the same, only the line numbers from that line on are one more. Likewise for the document: it differs in exactly these tags.", "quantifier": "all classic feature files, all scenarios in them, all tag lines, all file names; for the document also all languages", "why_tests_cant": "The scenario may stand anywhere, in a rule, after any tags, comments and other scenarios; the ids and line numbers of everything after it change, and the parser must look ahead to see what the tags belong to.", "anchors": ["packages/gurke/src/gurke/parser.py: Parser.lookahead_0", "packages/gurke/src/gurke/ast_builder.py: AstBuilder.get_tags", "packages/gurke/src/gurke/pickles/compiler.py: Compiler._compile_scenario", "src/GherkinParser/gherkin_builder.py: build_gherkin_model"]}
{"id": "C86", "title": "A step line before a step adds one call to the tests of that step, and changes nothing else", "statement": "Take a feature file that is a suite whose example headers have no special characters, and put one step line directly before a step, in any background or scenario: the file is still a suite with the same settings and as many tests, in the same order. In each test that has a call for that step there is exactly one new call, directly before it, with no arguments, the place of the new line, and the keyword and text of the new line (placeholders filled in if it is a step of a scenario, not of a background); all other calls and everything else of every test are the same, but the line numbers from that line on are one more. This holds if the new step is an And or But, or the step after it is none (C86_and shows why). Likewise for the document: it differs in exactly this step.", "quantifier": "all classic feature files, all steps in them, all step lines, all file names; for the document also all languages", "why_tests_cant": "The step may stand in any background or scenario, inherited by any number of tests, before steps with tables and doc strings; ids and line numbers of everything after it change, and the type of an And depends on the steps before it.", "anchors": ["packages/gurke/src/gurke/parser.py: Parser.match_token", "packages/gurke/src/gurke/pickles/compiler.py: Compiler._compile_scenario, Compiler._compile_scenario_outline, Compiler._pickle_step", "src/GherkinParser/gherkin_builder.py: build_gherkin_model"]}
{"id": "C87", "title": "Rewording a step changes the calls of that step and nothing else", "statement": "Take a feature file that is a suite whose example headers have no special characters, and replace the line of a step, in any background or scenario, by another step line of the same type (its table or doc string stays): the file is still a suite with the same settings and as many tests, in the same order. Each call for that step has the keyword and text of the new line (placeholders filled in if it is a step of a scenario), its column, the same line and the same arguments; everything else is exactly the same. Likewise the document differs in exactly this step, also if the type changes.", "quantifier": "all classic feature files, all steps in them, all step lines, all file names; for the document also all languages", "why_tests_cant": "The step may stand anywhere, be inherited by any number of tests and have any argument; the keyword may be another one of the language.", "anchors": ["packages/gurke/src/gurke/parser.py: Parser.match_token", "packages/gurke/src/gurke/pickles/compiler.py: Compiler._pickle_step", "src/GherkinParser/gherkin_builder.py: build_gherkin_model"]}
{"id": "C88", "title": "Renaming a scenario changes the names of its tests and nothing else", "statement": "Take a feature file that is a suite whose example headers have no special characters, and replace the title line of a scenario or scenario outline by another scenario title line (any scenario keyword of the language): the file is still a suite with the same settings and as many tests, in the same order; the tests of that scenario are named after the new title (placeholders filled in, the same row values behind it) and have the column of the new line; everything else is exactly the same. Likewise the document differs in exactly this title.", "quantifier": "all classic feature files, all scenarios in them, all scenario titles, all file names; for the document also all languages", "why_tests_cant": "The scenario may stand anywhere, with any tags, steps and examples; the keyword may change from Scenario to Scenario Outline and back.", "anchors": ["packages/gurke/src/gurke/parser.py: Parser.match_token", "packages/gurke/src/gurke/pickles/compiler.py: Compiler._compile_scenario, Compiler._compile_scenario_outline", "src/GherkinParser/gherkin_builder.py: build_gherkin_model"]}
{"id": "C89", "title": "Replacing a row of a data table changes the argument of its step and nothing else", "statement": "Take a feature file that is a suite whose example headers have no special characters, and replace a row of the data table of a step, in any background or scenario, by another row with as many cells as the other rows of that table have: the file is still a suite with the same settings and as many tests, in the same order. Each call for that step has the table with the new row as its argument (placeholders filled in if it is a step of a scenario) and the same name, line and column; everything else is exactly the same. Likewise the document differs in exactly this row.", "quantifier": "all classic feature files, all rows of step tables in them, all table rows that fit, all file names; for the document also all languages", "why_tests_cant": "The step may stand anywhere and be inherited by any number of tests, the table may have any size, blank lines and comments in it, and the cells any characters, escapes and placeholders.", "anchors": ["packages/gurke/src/gurke/parser.py: Parser.match_token", "packages/gurke/src/gurke/ast_builder.py: AstBuilder.get_table_rows, AstBuilder.ensure_cell_count", "packages/gurke/src/gurke/pickles/compiler.py: Compiler._create_pickle_arguments", "src/GherkinParser/gherkin_builder.py: build_gherkin_model"]}
{"id": "C90", "title": "A suite depends on nothing but the essentials of its feature, positions included", "statement": "If two feature files (classic or Markdown, of any names) have features that agree in language, tags, description, background steps, scenarios (tags, place, name, description, steps, examples with their keyword, tags and cell values) and rules (tags, background steps, scenarios), where steps agree in place, keyword, type, text and argument, then building them gives exactly the same suite, down to every line and column, or the same failure. Ids, comments, the names and keywords of features, rules and backgrounds, the keywords of scenarios, the names of examples, descriptions of rules, backgrounds and examples, the places of anything but scenarios and steps, and doc string delimiters have no influence. The name returned with the suite is the title of the feature.", "quantifier": "all pairs of feature files that parse to features agreeing in what is kept; all resource directories", "why_tests_cant": "It is a statement about all pairs of documents of any size.", "anchors": ["src/GherkinParser/gherkin_builder.py: build_gherkin_model", "packages/gurke/src/gurke/pickles/compiler.py: Compiler.compile"]}
{"id": "C91", "title": "Another title for the feature, a rule, a background or examples changes nothing in the suite but its name", "statement": "Take a feature file that is a suite and replace the title line of its feature, of a rule, of a background or of examples by another title of the same kind (for examples, with the same keyword): the file gives exactly the same suite, with the same positions; the name of the suite is the new title if it is that of the feature and stays the same otherwise. The document differs only in the place, keyword and name of that title.", "quantifier": "all classic feature files, all title lines in them, all title lines of the same kind in the language of the file; for the document also all default languages", "why_tests_cant": "The title may stand anywhere (also on the first line), in any number of rules and scenarios, and the new one may have any name and indentation.", "anchors": ["packages/gurke/src/gurke/parser.py: Parser.match_token", "packages/gurke/src/gurke/ast_builder.py: AstBuilder.transform_node", "src/GherkinParser/gherkin_builder.py: build_gherkin_model"]}
{"id": "C92", "title": "A feature file may end its lines in LF, CR LF or CR, also mixed", "statement": "A file is read as the text with one LF for every line end of the file, whichever of LF, CR LF and CR it is; the text read has no CR and is the only one that stands for the file. So two files that differ only in their line ends are parsed to the same document, with the same ids and places, or are refused with the same errors, by both matchers. In a text that is not read from a file LF and CR LF may be mixed with the classic matcher.", "quantifier": "all file contents and all texts, all ways to end their lines, all languages, both error modes", "why_tests_cant": "Each line of a text of any length may end in its own way; a CR before an empty line that ends in LF must not be taken for two line ends.", "anchors": ["packages/gurke/src/gurke/token_scanner.py: TokenScanner.__init__, TokenScanner.read", "packages/gurke/src/gurke/parser.py: Parser.parse"]}
{"id": "C93", "title": "Tags change nothing in a suite but tags", "statement": "If the features of two files (classic or Markdown) differ only in their tags, in what a suite does not depend on (C90) and in where their lines are, then both give a suite or both give the same failure. The two suites have the same documentation, library and resources and the same tests in the same order, with the same names, documentation and calls: they differ in tags, and in that the lines of tests and calls are those of the file.", "quantifier": "all pairs of files with such features, all ways to move lines, classic and Markdown, all places to look for resources", "why_tests_cant": "Any number of tags may be on the feature, every rule, every scenario and all examples, and each may be there or not in the other file.", "anchors": ["packages/gurke/src/gurke/pickles/compiler.py: Compiler._compile_scenario, _compile_scenario_outline", "src/GherkinParser/gherkin_builder.py: build_gherkin_model"]}
{"id": "C94", "title": "A tag line above any title gives its tags to the tests of that part, and to no others", "statement": "If line n of a classic file that gives a suite is the title of the feature, of a rule, of a scenario or of examples, then the file with a tag line inserted before it gives a suite too: the same tests with the same names, documentation and calls, moved down where they are below that line. The tests that come from that part have the tags of the line, in their order, after the tags of that part and before those of the parts inside it; for the feature they are new test tags of the suite, after those it has, and in its metadata. The document is the same too, but for the tags of that part and the lines moved.", "quantifier": "all files that give a suite, all titles in them, also on the first line, all tag lines with any number of tags and comments, all languages", "why_tests_cant": "The file may have any number of rules, scenarios, examples and rows below the title, each with its own tags.", "anchors": ["packages/gurke/src/gurke/parser.py: Parser.match_TagLine", "packages/gurke/src/gurke/ast_builder.py: AstBuilder.get_tags", "packages/gurke/src/gurke/pickles/compiler.py: Compiler", "src/GherkinParser/gherkin_builder.py: build_gherkin_model"]}
{"id": "C95", "title": "Descriptions change nothing in a suite but documentation", "statement": "If the features of two files (classic or Markdown) differ only in their descriptions, in what a suite does not depend on (C90) and in where their lines are, then both give a suite or both give the same failure. The two suites have the same library, resources, tags and the same tests in the same order, with the same names, tags and calls: they differ in documentation, and in that the lines of tests and calls are those of the file. The documentation of a test is the description of its scenario, that of the suite the description of the feature.", "quantifier": "all pairs of files with such features, all ways to move lines, classic and Markdown, all places to look for resources", "why_tests_cant": "Any number of lines of description may be below every title, and each may be there or not in the other file.", "anchors": ["packages/gurke/src/gurke/pickles/compiler.py: Compiler._compile_scenario, _compile_scenario_outline", "src/GherkinParser/gherkin_builder.py: build_gherkin_model"]}
{"id": "C96", "title": "A line of description below any title is documentation of that part, and nothing else", "statement": "If line n of a classic file that gives a suite is the title of the feature, of a rule, a background, a scenario or examples, then the file with a line below it that is not blank and cannot end a description there gives a suite too: the same tests with the same names, tags and calls, moved down where they are below that line. If the title is that of a scenario, the documentation of all its tests begins with that line and goes on with what it was; if it is that of the feature, the documentation of the suite does; for a rule, a background or examples no documentation changes. The document is the same too, but for the description of that part, which begins with the line, verbatim, and the lines moved.", "quantifier": "all files that give a suite, all titles in them, all lines that are text there, all languages", "why_tests_cant": "The file may have any number of parts below the title and any description there already, after any number of blank lines.", "anchors": ["packages/gurke/src/gurke/parser.py: Parser.match_Other", "packages/gurke/src/gurke/ast_builder.py: AstBuilder.transform_node", "src/GherkinParser/gherkin_builder.py: build_gherkin_model"]}
{"id": "C97", "title": "Tables and doc strings of steps change nothing in a suite but arguments of calls", "statement": "If the features of two files (classic or Markdown) differ only in the tables and doc strings of their steps, in what a suite does not depend on (C90) and in where their lines are, and both give suites, then the two suites have the same documentation, library, resources, tags and the same tests in the same order, with the same names, tags, documentation and the same calls: they differ in arguments of calls, and in that the lines of tests and calls are those of the file. Calls of steps whose arguments say the same in both have the same arguments. If no header of the examples has special characters of regular expressions, both give suites.", "quantifier": "all pairs of files with such features, all ways to move lines, classic and Markdown, all places to look for resources", "why_tests_cant": "Any step, also of the background and of an outline of any size, may have any table or doc string or none in the other file.", "anchors": ["packages/gurke/src/gurke/pickles/compiler.py: Compiler._create_pickle_arguments, _pickle_steps", "src/GherkinParser/gherkin_builder.py: build_gherkin_model"]}
{"id": "C98", "title": "Replacing, removing or adding the doc string of a step", "statement": "In a classic file, replacing the lines of the doc string of a step by the lines of another doc string (any separator, indentation, media type and content), taking them away, or adding them below a step without argument gives a file of the same document but for that argument: ids apart, every other line moves by the difference. If the original gives a suite (and no header of the examples has special characters of regular expressions), so does the other file: the same documentation, resources and tags, the same tests in the same order, with the same names, tags and documentation and the same calls, but that the lines are moved and the arguments of the calls of that step may differ.", "quantifier": "all classic files with such a step, anywhere (background, scenario, outline, rule), all doc strings of any number of lines, all dialects, both ways to stop at errors", "why_tests_cant": "The text before and after, the old and the new doc string are of any size; the doc string may hold lines like keywords, comments, tables or the other separator.", "anchors": ["packages/gurke/src/gurke/token_matcher.py: match_DocStringSeparator, match_Other", "packages/gurke/src/gurke/ast_builder.py: AstBuilder.transform_node", "src/GherkinParser/gherkin_builder.py: build_gherkin_model"]}
{"id": "C99", "title": "Replacing, removing or adding the table or doc string of a step", "statement": "In a classic file, replacing the lines of the argument of a step, a table or a doc string, by the lines of any other table or doc string, taking them away, or adding them below a step without argument, gives a file of the same document but for that argument: ids apart, every other line moves by the difference, also comments after the argument. If the original gives a suite (and no header of the examples has special characters of regular expressions), so does the other file: the same documentation, resources and tags, the same tests in the same order, with the same names, tags and documentation and the same calls, but that the lines are moved and the arguments of the calls of that step may differ.", "quantifier": "all classic files with such a step, anywhere (background, scenario, outline, rule), all tables of any number of rows and columns and all doc strings, all dialects, both ways to stop at errors", "why_tests_cant": "The text before and after, the old and the new argument are of any size; any table may take the place of any doc string and the other way round.", "anchors": ["packages/gurke/src/gurke/ast_builder.py: AstBuilder.transform_node, get_table_rows, ensure_cell_count", "packages/gurke/src/gurke/token_matcher.py: match_TableRow, match_DocStringSeparator", "src/GherkinParser/gherkin_builder.py: build_gherkin_model"]}
{"id": "C100", "title": "A language header naming the language the text is read in anyway may be put in or taken out", "statement": "In a classic file with a feature, a line `# language: xx` (with any blanks the parser allows) above the feature, with only blank and comment lines before it, where xx is the language the text would be read in without it, changes nothing but the line numbers: with the header the text gives the same document, and without it again the same, ids apart and the lines below moved by one. This holds for every supported language against itself, whatever language is the default of the parser in the file with the header. A `# language: en` header put into a classic feature file gives the same suite with the tests moved down by one line, taking it out moves them up.", "quantifier": "all texts with a feature, with any number of comment and blank lines above the header, all supported languages, any content below the header, also comments that only look like a header further down; the suites for the default language of the program", "why_tests_cant": "The text above and below the header is of any size and content.", "anchors": ["packages/gurke/src/gurke/token_matcher.py: TokenMatcher.match_Language", "packages/gurke/src/gurke/parser.py: Parser.parse", "src/GherkinParser/gherkin_builder.py: build_gherkin_model"]}
{"id": "C101", "title": "A feature translated into the keywords of another language gives the same tests", "statement": "Two feature files (classic or Markdown, of any names) whose features differ in nothing but the language and the keywords (and ids, places, comments) give the same suite in other words, or the same failure: the same documentation, resources and tags, and the same tests in the same order, with the same documentation and tags and calls with the same arguments and the same texts; only the keywords before the texts differ (either both calls show one or none does), and the values of the row are put after the name of a test only where its table has the keyword Examples. A feature read from a classic file can be written down in the words of any other language, as long as these words end none of its descriptions, and the written text is read as the feature in those words. Every language but en-tx, ht and sl has a readable keyword for every type of steps; in en-tx and sl no step can be read as one of unknown type (the asterisk), in ht none as an outcome.", "quantifier": "all feature files, all supported languages, all choices of keywords of the languages", "why_tests_cant": "The features are of any size and shape, and the words may be any of the more than seventy languages.", "anchors": ["packages/gurke/src/gurke/gherkin-languages.json", "packages/gurke/src/gurke/token_matcher.py: match_StepLine, _match_title_line", "packages/gurke/src/gurke/pickles/compiler.py: compile", "src/GherkinParser/gherkin_builder.py: build_gherkin_model"]}
{"id": "C102", "title": "A feature without descriptions can be written down as Markdown", "statement": "A feature without descriptions, whose tags have a name without back quotes, none of whose lines has a word in back quotes that begins with @, none of whose table cells is a row of dashes and none of whose back-quoted doc strings has a media type that begins with a back quote, can be written down as a Markdown text: headers for the titles, bullets for the steps, tags in back quotes, tables and doc strings as in a classic file. For every supported language, the parser, told that language, reads that text back as a feature with the same keywords, names, tags, steps, arguments and rows in the same order (ids, places and the type of steps with a keyword of several groups aside). An English feature whose steps begin with words gives the same suite (or the same failure) whether it is written down as a Markdown file or as a classic one, places aside.", "quantifier": "all features that can be written down, all supported languages, all names of files", "why_tests_cant": "The features are of any size and shape, with any texts.", "anchors": ["packages/gurke/src/gurke/token_matcher_markdown.py: GherkinInMarkdownTokenMatcher", "packages/gurke/src/gurke/parser.py: Parser.parse", "packages/gurke/src/gurke/ast_builder.py: AstBuilder", "src/GherkinParser/gherkin_builder.py: build_gherkin_model"]}
{"id": "C103", "title": "Backgrounds may be spread over the scenarios", "statement": "When the backgrounds of a feature and of its rules are taken out and their steps are put before the steps of every scenario they apply to (first those of the feature, then those of the rule; a scenario without steps stays without), the suite stays the same: the same settings and tests in the same order, with the same names, documentation and tags, and the same calls with the same arguments in the same order. This is said of files whose table headers have no characters special in regular expressions, where no step of a background contains a placeholder of a table (placeholders in backgrounds are not filled in, those in scenarios are). The feature without backgrounds can always be written down as a classic file.", "quantifier": "all feature files (classic or Markdown) with ordinary table headers and no table placeholders in backgrounds", "why_tests_cant": "The features are of any size and shape; the steps go through the loops of the compiler in another order and with other variables.", "anchors": ["packages/gurke/src/gurke/pickles/compiler.py: compile, _compile_scenario, _compile_scenario_outline, _compile_rule", "src/GherkinParser/gherkin_builder.py: build_gherkin_model"]}
{"id": "C104", "title": "Outlines may be written out as scenarios", "statement": "When a second file says what a first one does, but has in place of every outline one scenario without examples for each row (in the order of the tables and of their rows, with the placeholders filled in from left to right in name, step texts, tables and doc strings, and with the tags of the examples block after those of the outline), both give the same pickles (name, language, tags, steps with type, text and argument, in order) and the same suite: same settings, tests in the same order with the same documentation and tags and the same calls with the same arguments. Only the names of the tests of rows differ: where the block is called Examples, ` header = value` is added for each column. This is said of files whose table headers have no characters special in regular expressions and where no row of an outline begins with And or But (there an outline keeps the keyword in the call and a scenario drops it).", "quantifier": "all pairs of files (classic or Markdown) of which one writes out the outlines of the other", "why_tests_cant": "The features are of any size and shape; outlines and scenarios go through different functions of the compiler and of the builder.", "anchors": ["packages/gurke/src/gurke/pickles/compiler.py: compile, _compile_scenario, _compile_scenario_outline, _interpolate", "src/GherkinParser/gherkin_builder.py: build_gherkin_model"]}
{"id": "C105", "title": "Cases may be grouped otherwise", "statement": "The suite of a feature file depends on the feature's tags, language, name and description and on the sequence of its cases (scenarios, and rows of outlines) only: of a case on its name, description, tags below the feature, examples keyword, header and values, and on its background steps and own steps. So the examples blocks of an outline may be given to two outlines, the rows of a table to two tables with the same header and tags, a first rule without tags and background may be dissolved, and tables, outlines and rules that give no case may be left out (a table only beside another one): settings and tests stay the same, with the same names, documentation, tags and calls in the same order. This is said of files whose table headers have no characters special in regular expressions.", "quantifier": "all pairs of feature files (classic or Markdown) with the same cases in the same order, and all ways to split outlines and tables and to dissolve a first rule", "why_tests_cant": "The groups are of any number and size; the order of the tests comes from nested loops over rules, scenarios, tables and rows.", "anchors": ["packages/gurke/src/gurke/pickles/compiler.py: compile, _compile_rule, _compile_scenario_outline", "src/GherkinParser/gherkin_builder.py: build_gherkin_model"]}
{"id": "C106", "title": "Tags of rules and outlines may be moved down", "statement": "When the tags of every rule are put before the tags of its scenarios, and the tags of every outline (with those of its rule) before the tags of its examples blocks, and are taken away where they stood, the suite stays the same: the same settings and tests in the same order with the same names, documentation, tags in the same order, and calls. The feature so changed can always be written down as a classic file. This is said of files whose table headers have no characters special in regular expressions.", "quantifier": "all feature files (classic or Markdown) with ordinary table headers", "why_tests_cant": "The features are of any size and shape; tags are collected along the nesting by three functions of the compiler.", "anchors": ["packages/gurke/src/gurke/pickles/compiler.py: compile, _compile_rule, _compile_scenario, _compile_scenario_outline, _pickle_tags", "src/GherkinParser/gherkin_builder.py: build_gherkin_model"]}
{"id": "C107", "title": "Rules may be dissolved", "statement": "When the rules of a feature are taken away and their scenarios, with the tags of their rules, are put after the scenarios outside rules, the suite stays the same, provided that no rule has a background with steps: the same settings and tests in the same order with the same names, documentation, tags and calls. If backgrounds contain no placeholders of tables, their steps can be spread over the scenarios first (C103); so every classic feature file of that kind can be written with neither backgrounds nor rules, and gives the same suite. This is said of files whose table headers have no characters special in regular expressions.", "quantifier": "all feature files with ordinary table headers (those without steps in backgrounds of rules, or without placeholders in backgrounds)", "why_tests_cant": "The features have any number of rules of any size; scenarios in and outside rules go through different functions of the compiler.", "anchors": ["packages/gurke/src/gurke/pickles/compiler.py: compile, _compile_rule", "src/GherkinParser/gherkin_builder.py: build_gherkin_model"]}
