{"id": "C01", "title": "Tokenising loses, invents and reorders nothing", "statement": "For a SQL text without backslashes, the concatenation of the tokens is the text with only spaces, newlines and tabs removed: no other character is lost, added, duplicated or moved. (With a trailing backslash this is false: a quote is invented.)", "quantifier": "every SQL text", "why_tests_cant": "texts are unbounded; tests compare a few token lists", "anchors": ["sqlvalidator/grammar/tokeniser.py:split_tokens", "sqlvalidator/grammar/tokeniser.py:split_with_escaping", "sqlvalidator/grammar/tokeniser.py:merge_stream", "sqlvalidator/grammar/tokeniser.py:to_tokens"]}
{"id": "C02", "title": "Layout of the input does not matter", "statement": "Two SQL texts without quotes and backslashes that consist of the same words, separated by any non-empty runs of spaces, newlines and tabs, are formatted identically and get the same validation verdict.", "quantifier": "every pair of texts with the same words", "why_tests_cant": "infinitely many layouts of infinitely many queries", "anchors": ["sqlvalidator/grammar/tokeniser.py:to_tokens", "sqlvalidator/sql_formatter.py:format_sql", "sqlvalidator/sql_validator.py:SQLQuery"]}
{"id": "C03", "title": "Tokenising always terminates, in bounded recursion depth", "statement": "For every text without backslashes tokenising finishes and its recursion depth is bounded by a constant independent of the text. With a backslash directly before a quote or separator outside a literal this is false: the recursion never ends.", "quantifier": "every SQL text", "why_tests_cant": "termination is a statement about all inputs; a test only sees inputs that finish", "anchors": ["sqlvalidator/grammar/tokeniser.py:split_tokens", "sqlvalidator/grammar/tokeniser.py:_split_on_string_token", "sqlvalidator/grammar/tokeniser.py:_split_on_kept_token"]}
{"id": "C04", "title": "String literals are tokenised verbatim", "statement": "In a text prefix 'content' suffix whose quotes pair up, the literal yields exactly the three tokens quote, content, quote, whatever characters (spaces, commas, keywords) the content has, and the surrounding text is tokenised as if the literal were not there. The content may also hold one escaped quote. (False when the content holds a quote that delimits another literal of the text, or two escaped quotes.)", "quantifier": "every literal content and every surrounding text", "why_tests_cant": "contents range over all strings", "anchors": ["sqlvalidator/grammar/tokeniser.py:_split_on_string_token", "sqlvalidator/grammar/tokeniser.py:split_with_sep"]}
{"id": "C05", "title": "Outside literals tokens are words, separators or numbers", "statement": "For quote-free, backslash-free text no token contains a blank, and a token of two or more characters contains a separator character only if it is a number with dots or a two-character operator.", "quantifier": "every quote-free text", "why_tests_cant": "unbounded texts", "anchors": ["sqlvalidator/grammar/tokeniser.py:split_tokens", "sqlvalidator/grammar/tokeniser.py:KEPT_SPLIT_TOKENS", "sqlvalidator/grammar/tokeniser.py:MERGE_TOKENS"]}
{"id": "C06", "title": "Operator merging is lossless and never hits its internal error", "statement": "Joining adjacent '<' '=' etc. keeps the concatenation of the token stream unchanged, produces only the listed operators, and the branch raising ValueError('Should not reach here') is unreachable.", "quantifier": "every token stream", "why_tests_cant": "unbounded streams; unreachability cannot be tested", "anchors": ["sqlvalidator/grammar/tokeniser.py:merge_stream"]}
{"id": "C07", "title": "Parsing always terminates", "statement": "For every finite token sequence the statement parser returns a statement or raises an exception after recursion no deeper than a linear function of the number of tokens; no loop in it can run forever.", "quantifier": "every token sequence, well-formed or not", "why_tests_cant": "termination for all inputs", "anchors": ["sqlvalidator/grammar/lexer.py:SQLStatementParser", "sqlvalidator/grammar/lexer.py:ExpressionParser", "sqlvalidator/grammar/lexer.py:FromStatementParser", "sqlvalidator/grammar/lexer.py:CaseParser"]}
{"id": "C08", "title": "Only SELECT and WITH statements are accepted", "statement": "If the first token of the text is neither SELECT nor WITH (in any case), format_sql raises ParsingError and parse(sql).is_valid() returns False with exactly one error; conversely a formatted text starts with SELECT or WITH.", "quantifier": "every SQL text", "why_tests_cant": "all texts", "anchors": ["sqlvalidator/grammar/lexer.py:SQLStatementParser.parse", "sqlvalidator/sql_validator.py:SQLQuery.is_valid", "sqlvalidator/sql_formatter.py:format_sql"]}
{"id": "C09", "title": "The terminating semicolon is kept", "statement": "For every query of the supported grammar fragment the formatted text ends with ';' if and only if the query does, and contains no other ';'. (False in general: select a from t where b c d ; loses it.)", "quantifier": "every query of the fragment", "why_tests_cant": "all statements", "anchors": ["sqlvalidator/grammar/lexer.py:SelectStatementParser.parse", "sqlvalidator/grammar/sql.py:SelectStatement.transform"]}
{"id": "C10", "title": "Keyword case does not matter", "statement": "In the supported grammar fragment, changing the case of keywords changes neither whether a query parses nor the formatted text. (False in general: a leading CASE written in upper case is not counted as an opened CASE.)", "quantifier": "every query of the fragment and every case variant of its keywords", "why_tests_cant": "exponentially many case variants per query", "anchors": ["sqlvalidator/grammar/lexer.py:SelectStatementParser", "sqlvalidator/grammar/lexer.py:ExpressionParser", "sqlvalidator/grammar/tokeniser.py:get_tokens_until_one_of"]}
{"id": "C11", "title": "Formatting keeps every token", "statement": "For every query of the supported grammar fragment, the token sequence of the formatted text is that of the input up to the case of keywords and function names. (False in general: tokens after a complete aliased expression, a '(' inside a string literal, LIMIT 0 in ARRAY_AGG and others lose tokens.)", "quantifier": "every query of the fragment", "why_tests_cant": "unbounded queries", "anchors": ["sqlvalidator/sql_formatter.py:format_sql", "sqlvalidator/grammar/sql.py:transform", "sqlvalidator/grammar/lexer.py:ExpressionListParser"]}
{"id": "C12", "title": "Formatting is idempotent", "statement": "For every query whose parse lies in the supported fragment, format_sql(format_sql(q)) == format_sql(q), as the README's format / check-format session promises. (False in general: large floats, multi-line string literals.)", "quantifier": "every query of the fragment", "why_tests_cant": "unbounded queries; a test shows one fixpoint at a time", "anchors": ["sqlvalidator/sql_formatter.py:format_sql", "sqlvalidator/grammar/sql.py:transform"]}
{"id": "C13", "title": "String literal contents survive formatting", "statement": "Formatting a query of the supported grammar fragment does not change the characters between the quotes of any of its string literals, their kind of quote or their order. (False for literals with a newline, which are re-indented.)", "quantifier": "every query of the fragment, any number of literals with any content without a newline", "why_tests_cant": "all contents", "anchors": ["sqlvalidator/grammar/sql.py:String", "sqlvalidator/grammar/sql.py:SelectStatement.transform", "sqlvalidator/grammar/lexer.py:StringParser"]}
{"id": "C14", "title": "Integer literals keep their value", "statement": "An integer literal of any length is printed as the decimal numeral of the same value, without leading zeros, and printing is a fixpoint of re-parsing.", "quantifier": "every digit sequence", "why_tests_cant": "all integers", "anchors": ["sqlvalidator/grammar/sql.py:Integer", "sqlvalidator/grammar/lexer.py:ExpressionParser.parse"]}
{"id": "C15", "title": "Subqueries are indented", "statement": "Wherever a query of the supported grammar fragment is nested in another one, its formatted lines stand in the output as a block, each line indented by at least one space per nesting level. (False for a one-line query that is an operand of a broken AND or OR: it stays on the operand's line.)", "quantifier": "every query of the fragment and every query nested in it", "why_tests_cant": "unbounded nesting", "anchors": ["sqlvalidator/grammar/sql.py:SelectStatement.transform", "sqlvalidator/grammar/sql.py:Parenthesis", "sqlvalidator/grammar/sql.py:WithQuery"]}
{"id": "C16", "title": "Line-length rule for conditions and calls", "statement": "An AND/OR condition is put on one line exactly when its one-line form is shorter than 88 characters and it is not inside a broken one; a function call's arguments are put on separate lines exactly when an argument is multi-line or the joined arguments exceed 88 characters. (No printed line is longer than 88 characters: false, the keyword and the indentation are not counted.)", "quantifier": "every condition and call", "why_tests_cant": "all lengths and nestings", "anchors": ["sqlvalidator/grammar/sql.py:BooleanCondition.transform", "sqlvalidator/grammar/sql.py:FunctionCall.__str__", "sqlvalidator/grammar/sql.py:DEFAULT_LINE_LENGTH"]}
{"id": "C17", "title": "Validation is schemaless", "statement": "A query whose FROM is a plain table never gets a missing-column, unknown-alias or ambiguous-column error, whatever its expressions are.", "quantifier": "every statement over a plain table", "why_tests_cant": "all expressions", "anchors": ["sqlvalidator/grammar/sql.py:Table.known_fields", "sqlvalidator/grammar/sql.py:Column.validate", "sqlvalidator/grammar/sql.py:ChainedColumns.validate", "sqlvalidator/grammar/sql.py:SelectStatement.validate"]}
{"id": "C18", "title": "Missing columns are reported", "statement": "A column used directly in the select list, in a function argument, a parenthesis or either side of a comparison, that the FROM subquery does not produce is reported. (False below arithmetic, NOT, CASE, arrays and indexes.)", "quantifier": "every subquery field set and every such position", "why_tests_cant": "all nestings", "anchors": ["sqlvalidator/grammar/sql.py:Column.validate", "sqlvalidator/grammar/sql.py:FunctionCall.validate", "sqlvalidator/grammar/sql.py:Condition.validate", "sqlvalidator/grammar/sql.py:SelectStatement.known_fields"]}
{"id": "C19", "title": "LIMIT and OFFSET rule", "statement": "A LIMIT (OFFSET) argument produces no error exactly when it is, under any number of parentheses, an integer literal that is not negative.", "quantifier": "every argument expression and every integer", "why_tests_cant": "all integers and nestings", "anchors": ["sqlvalidator/grammar/sql.py:LimitClause.validate", "sqlvalidator/grammar/sql.py:OffsetClause.validate"]}
{"id": "C20", "title": "Positional GROUP BY and ORDER BY rule", "statement": "A position p in GROUP BY or ORDER BY, under any number of parentheses, is accepted exactly when 1 <= p <= number of select expressions.", "quantifier": "every integer, every select list length, every nesting", "why_tests_cant": "all integers", "anchors": ["sqlvalidator/grammar/sql.py:GroupByClause.validate", "sqlvalidator/grammar/sql.py:OrderByItem.validate"]}
{"id": "C21", "title": "WHERE and HAVING must be boolean", "statement": "WHERE/HAVING reports a type error exactly when the type of its argument (for a known field: the type that field has in the subquery) is neither boolean nor unknown.", "quantifier": "every expression and field set", "why_tests_cant": "all expressions", "anchors": ["sqlvalidator/grammar/sql.py:WhereClause.validate", "sqlvalidator/grammar/sql.py:HavingClause.validate", "sqlvalidator/grammar/sql.py:Expression.resolve_return_type"]}
{"id": "C22", "title": "Joins need a condition", "statement": "A join reports a missing ON or USING exactly when it is neither a CROSS JOIN nor a comma join and has neither clause; the outermost join of FROM is always checked. (A join nested in another join is never checked.)", "quantifier": "every join", "why_tests_cant": "all joins", "anchors": ["sqlvalidator/grammar/sql.py:Join.validate", "sqlvalidator/grammar/lexer.py:FromStatementParser"]}
{"id": "C23", "title": "The verdict does not depend on hash order", "statement": "The list of validation errors does not depend on the iteration order of the field sets (PYTHONHASHSEED), provided no field name occurs with two types. (Without the proviso it does.)", "quantifier": "every statement and every pair of iteration orders", "why_tests_cant": "hash randomisation makes runs differ; a test sees one order", "anchors": ["sqlvalidator/grammar/sql.py:Expression.resolve_return_type", "sqlvalidator/grammar/sql.py:SelectStatement.known_fields", "sqlvalidator/grammar/sql.py:_FieldInfo"]}
{"id": "C24", "title": "is_valid() answers instead of raising", "statement": "parse(sql).is_valid() returns True or False for every sql. (False: WITH statements, CAST, LIMIT ALL, blank text and others raise.) Within a stated class of statements it does return.", "quantifier": "every SQL text", "why_tests_cant": "all texts", "anchors": ["sqlvalidator/sql_validator.py:SQLQuery._validate", "sqlvalidator/grammar/sql.py:WithStatement", "sqlvalidator/grammar/sql.py:CastFunctionCall", "sqlvalidator/grammar/sql.py:LimitClause.validate"]}
{"id": "C25", "title": "is_valid() is stable over a query object's history", "statement": "After a call of is_valid() that returned, every later call on the same object, in any interleaving with format(), returns the same answer and leaves errors unchanged. (If the first call raised, the second returns True.)", "quantifier": "every sequence of method calls", "why_tests_cant": "histories are unbounded", "anchors": ["sqlvalidator/sql_validator.py:SQLQuery"]}
{"id": "C26", "title": "format() is independent of the object's history", "statement": "On one query object, format() returns (or raises) the same every time, whatever calls came before, and equals format_sql of the text.", "quantifier": "every sequence of method calls", "why_tests_cant": "histories are unbounded", "anchors": ["sqlvalidator/sql_validator.py:SQLQuery.format", "sqlvalidator/sql_validator.py:SQLQuery.sql_query", "sqlvalidator/sql_formatter.py:format_sql"]}
{"id": "C27", "title": "Checking and validating never write", "statement": "Without --format no file is ever opened for writing, whatever the files contain and whatever other options are given; with --format only files with a changed query are written, each at most once.", "quantifier": "every file system state, every option set, every input list", "why_tests_cant": "all contents and runs", "anchors": ["sqlvalidator/file_handler.py:analyse_file", "sqlvalidator/file_handler.py:handle_inputs", "sqlvalidator/main.py:_main"]}
{"id": "C28", "title": "Exit status", "statement": "The exit status is 1 exactly when --check-format was given and some query would change, or --validate was given and some query is invalid; otherwise 0. (--verbose-validate alone always exits 0.)", "quantifier": "every run", "why_tests_cant": "all runs", "anchors": ["sqlvalidator/file_handler.py:handle_inputs", "sqlvalidator/main.py:_main"]}
{"id": "C29", "title": "Each file is analysed at most once per run", "statement": "However the given files and directories overlap or repeat, and whichever analyses fail, each absolute path is analysed at most once in a run.", "quantifier": "every input list and directory structure", "why_tests_cant": "all overlaps; set aliasing between calls", "anchors": ["sqlvalidator/file_handler.py:handle_inputs", "sqlvalidator/file_handler.py:analyse_dir", "sqlvalidator/file_handler.py:analyse_file", "sqlvalidator/file_handler.py:InputSQLAnalyseInfo"]}
{"id": "C30", "title": "Only SQL string literals of a file change", "statement": "The rewritten file is the original token sequence re-assembled, with nothing changed but the text of string tokens that start with SELECT, each replaced by its formatted form; every other token and all whitespace between tokens is the same.", "quantifier": "every token sequence of a source file", "why_tests_cant": "all source files", "anchors": ["sqlvalidator/file_handler.py:compute_file_content", "sqlvalidator/file_handler.py:is_select_string"]}
{"id": "C31", "title": "nosqlformat protects a string", "statement": "A string whose next comment, with no other string in between, contains 'nosqlformat' is left untouched and not counted, whatever the other options.", "quantifier": "every token sequence and string", "why_tests_cant": "all files", "anchors": ["sqlvalidator/file_handler.py:compute_file_content", "sqlvalidator/file_handler.py:NO_SQLFORMAT_COMMENT"]}
{"id": "C32", "title": "nosqlvalidation protects a string", "statement": "A string whose next comment, with no other string in between, contains 'nosqlvalidation' never counts as invalid.", "quantifier": "every token sequence and string", "why_tests_cant": "all files", "anchors": ["sqlvalidator/file_handler.py:compute_file_content", "sqlvalidator/file_handler.py:NO_SQLVALIDATION_COMMENT"]}
{"id": "C33", "title": "The reported number of changes is the number of changed strings", "statement": "The number of changed SQL queries reported for a file equals the number of tokens whose text differs; if it is 0 the re-assembled tokens equal the original ones.", "quantifier": "every token sequence", "why_tests_cant": "all files", "anchors": ["sqlvalidator/file_handler.py:compute_file_content", "sqlvalidator/file_handler.py:analyse_file"]}
{"id": "C34", "title": "Prefix and quotes of a literal are kept", "statement": "For every legal Python string prefix and quote style, a SQL literal is re-quoted with the same prefix and the same kind of quote, tripled exactly when a one-line quote has to hold a multi-line text; quote detection never fails on a legal literal.", "quantifier": "every prefix, quote style and body", "why_tests_cant": "bodies are unbounded", "anchors": ["sqlvalidator/file_handler.py:handle_sql_string", "sqlvalidator/file_handler.py:STRING_PREFIXES", "sqlvalidator/file_handler.py:POSSIBLE_QUOTES"]}
{"id": "C35", "title": "A failing file is isolated", "statement": "When the analysis of one file raises, that file is not written, contributes nothing to the totals, and all other inputs are processed exactly as if the failing file were not there.", "quantifier": "every failing file and every position of it", "why_tests_cant": "all failure points", "anchors": ["sqlvalidator/file_handler.py:handle_one_input", "sqlvalidator/file_handler.py:analyse_dir"]}
{"id": "C36", "title": "Format then check reports nothing", "statement": "If formatting is idempotent on the strings of the files, a run with --format followed by a run with --check-format on the same inputs finds nothing to reformat and exits 0. It is idempotent on every literal, of any legal prefix and quote, around a statement of the fragment.", "quantifier": "every file content, every run", "why_tests_cant": "all contents", "anchors": ["sqlvalidator/file_handler.py:handle_inputs", "sqlvalidator/file_handler.py:compute_file_content"]}
{"id": "C37", "title": "Reported totals are sums over files", "statement": "The totals in the summary are the sums of the per-file numbers over the distinct files analysed.", "quantifier": "every run", "why_tests_cant": "all runs", "anchors": ["sqlvalidator/file_handler.py:InputSQLAnalyseInfo.update", "sqlvalidator/file_handler.py:print_format_summary"]}
{"id": "C38", "title": "Which strings count as SQL", "statement": "A Python string is treated as SQL exactly when, after removing leading blanks, newlines, quotes and prefix letters, its first line's first blank-separated word is 'select' in any case; otherwise it is never changed or validated.", "quantifier": "every string literal", "why_tests_cant": "all strings", "anchors": ["sqlvalidator/file_handler.py:is_select_string"]}
{"id": "C39", "title": "Every reported error is about something in the query", "statement": "Each error that is_valid() collects names a part of the statement that deserves it: a column, alias reference, AND/OR, WHERE/HAVING argument of non-boolean type, out-of-range position, LIMIT/OFFSET argument that is not a non-negative integer, or join without condition, at any nesting depth.", "quantifier": "every statement and every error in its list", "why_tests_cant": "a spurious message could come from any nesting of clauses and subqueries", "anchors": ["sqlvalidator/grammar/sql.py: validate methods", "sqlvalidator/sql_validator.py: SQLQuery.errors"]}
{"id": "C40", "title": "No false alarm on columns the FROM provides", "statement": "A query that reads only columns its FROM subquery or table provides gets no missing-column error. (False: quoted table with alias, UNNEST, subquery with qualified columns, qualified star, set operation, GROUP BY of a select alias.)", "quantifier": "every query over a subquery or table", "why_tests_cant": "the combinations of FROM items and select lists are unbounded", "anchors": ["sqlvalidator/grammar/sql.py: known_fields, Column.validate, GroupByClause.validate"]}
{"id": "C41", "title": "Formatting does not change the verdict", "statement": "Validating the formatted text of a query gives the same errors in the same order, and the same answer or exception of is_valid(), as validating the query. (False when a column is called like one of the words the printer upper-cases, e.g. monday.)", "quantifier": "every query whose tree is in the fragment and has no column among the 13 upper-cased words; every iteration order of sets", "why_tests_cant": "the validator re-reads a different text; types, names and positions must survive printing and parsing for every tree", "anchors": ["sqlvalidator/sql_formatter.py: format_sql", "sqlvalidator/sql_validator.py: SQLQuery.is_valid", "sqlvalidator/grammar/sql.py: validate, known_fields, resolve_return_type, Column.transform"]}
{"id": "C42", "title": "The case of keywords does not change the verdict", "statement": "Two texts that differ only in layout, in the case of keywords and function names and in leading zeros of integers get the same errors and the same answer or exception of is_valid().", "quantifier": "every statement of the fragment with no column called like an upper-cased word, every two spellings of it", "why_tests_cant": "the number of spellings is exponential in the length of the query", "anchors": ["sqlvalidator/sql_validator.py: SQLQuery.is_valid", "sqlvalidator/grammar/lexer.py: SQLStatementParser.parse"]}
{"id": "C43", "title": "A rewritten SQL literal is still one Python literal", "statement": "If a string literal of a Python file (any legal prefix, any of the four quotes) surrounds a statement of the fragment whose text has neither the literal's quote character nor a backslash, then handle_sql_string() rewrites it to a text that is exactly one Python string literal. For texts that contain the quote character this is false: '''select 'a' ''' becomes '''SELECT 'a'''', which Python rejects.", "quantifier": "all prefixes, quotes and statements of the fragment", "why_tests_cant": "the number of combinations of quote, prefix and statement is unbounded; the failing ones need a string at the very end of the query", "anchors": ["sqlvalidator/file_handler.py: handle_sql_string"]}
{"id": "C44", "title": "Replacement fields of f-strings survive formatting", "statement": "In a statement of the fragment, tokens with a brace that are not function names are the same, in the same order, in the formatted text. Fields that hold calls, format specifications or conditional expressions are not kept: {fmt(x)} becomes {FMT(x) }, {y:>10} becomes {y: > 10}, {e if g else h} becomes {e if.", "quantifier": "all statements of the fragment and all their texts", "why_tests_cant": "the field may stand anywhere in any statement", "anchors": ["sqlvalidator/file_handler.py: handle_sql_string", "sqlvalidator/sql_formatter.py: format_sql", "sqlvalidator/grammar/tokeniser.py: to_tokens"]}
{"id": "C45", "title": "Parameters of a query survive formatting", "statement": "In a statement of the fragment the parameters ?, :name, $1, %s, @name (tokens starting with one of these signs) are the same, in the same order, in the formatted text. The psycopg style %(name)s is not kept: it counts as a call of % and everything after it is dropped (select a from t where b = %(name)s and c = 2 order by a).", "quantifier": "every statement of the fragment and every text of it, any number of parameters", "why_tests_cant": "parameters may stand at any place of any statement; the failing style loses the rest of the query silently", "anchors": ["sqlvalidator/sql_formatter.py: format_sql", "sqlvalidator/grammar/tokeniser.py: to_tokens", "sqlvalidator/grammar/lexer.py: ExpressionParser"]}
{"id": "C46", "title": "The string a rewritten literal stands for is the same query", "statement": "When handle_sql_string() rewrites a Python literal (any legal prefix and quote, no backslash, quote character not inside) around a statement of the fragment, the string the new literal stands for has the same tokens as the old one up to case of keywords and function names and leading zeros, and is formatted to the same text. For literals that Python joins because they are adjacent this is false: 'select a ' 'from t' becomes 'SELECT a' 'from t', which is SELECT afrom t.", "quantifier": "every prefix, quote and statement of the fragment", "why_tests_cant": "the property relates the program's meaning before and after, for every literal", "anchors": ["sqlvalidator/file_handler.py: handle_sql_string", "sqlvalidator/file_handler.py: compute_file_content"]}
{"id": "C47", "title": "Formatted text has no empty lines and no blanks at the end of a line", "statement": "For every statement of the fragment in which a query stands in parentheses only as the first item, every line of the text format_sql() returns is non-empty and does not end in a blank or tab; the same for every query whose tree has names, operators and numbers that are on one line and do not end in a blank, literals without line breaks, and the lists the parser fills non-empty, with queries only where the printer expects them. Without these conditions it is false: `x in (b, select c from u)` leaves a blank behind the comma, and literals keep their own lines.", "quantifier": "every query q with parse_sql(q) = n for a statement n of the fragment, or a tidy tree n", "why_tests_cant": "the layout code concatenates blanks and newlines in some forty places, and each nesting of constructs is another combination", "anchors": ["sqlvalidator/grammar/sql.py: transform", "sqlvalidator/grammar/sql.py: SelectStatement.transform", "sqlvalidator/grammar/sql.py: Parenthesis.transform", "sqlvalidator/grammar/sql.py: Case.transform", "sqlvalidator/sql_formatter.py: format_sql"]}
{"id": "C48", "title": "Number of transform calls made by the formatter", "statement": "format_sql() turns the nodes of the tree into text by calling transform (or str). For every tree the number of these calls is at most size * 2^depth, where depth counts nested AND/OR conditions and parentheses; it is at most the number of nodes if every AND/OR condition fits in a line of 88 characters and no parenthesised condition of a clause is printed over several lines. In general it is exponential in the length of the query: BooleanCondition.transform transforms its operands for the one-line text and again for the broken text, and a AND b AND c is nested to the right, so each further AND doubles the calls. No polynomial in the length of the query bounds them.", "quantifier": "all trees; for the lower bound one query for every k", "why_tests_cant": "a test with a few conditions finishes in no time; with 40 operands of AND the formatter does not come back", "anchors": ["sqlvalidator/grammar/sql.py: BooleanCondition.transform", "sqlvalidator/grammar/sql.py: transform, __str__ of all classes", "sqlvalidator/sql_formatter.py: format_sql"]}
{"id": "C49", "title": "Names that FROM does not provide, or provides twice, are reported", "statement": "Let the columns a FROM clause provides be those of SpecScope (tables, subqueries, aliases, joins, stars, correlated subqueries). Every column that the validator looks up (select list, WHERE, HAVING, ORDER BY, at any depth of calls, parentheses, comparisons, AND/OR, subqueries in conditions and FROM) in a scope without this name gives the message 'The column v was not found'; with the name under two aliases, 'column v is ambiguous'; a.v with an alias that has no v, 'The column v was not found in alias a'; in GROUP BY, 'column v does not exist'. It is not so everywhere: nothing is looked up in a query that is an operand of a join nor in the condition of a join, and an ambiguous name in GROUP BY makes is_valid() raise AttributeError.", "quantifier": "all statements, names, depths and iteration orders", "why_tests_cant": "the name may stand at any depth, and the scope is assembled from any number of joins and enclosing queries", "anchors": ["sqlvalidator/grammar/sql.py: Column.validate", "sqlvalidator/grammar/sql.py: ChainedColumns.validate", "sqlvalidator/grammar/sql.py: GroupByClause.validate", "sqlvalidator/grammar/sql.py: SelectStatement.validate, known_fields", "sqlvalidator/grammar/sql.py: Join.validate, known_fields"]}
{"id": "C50", "title": "How often the parser calls itself", "statement": "Count the calls of ExpressionParser, SelectStatementParser, FromStatementParser and SQLStatementParser, and the tokens that the try/except in FromStatementParser parses a second time. For every list of tokens the calls are at most 1 + 5 * (tokens + tokens parsed again), and at most 1 + 5 * 2^d * tokens, d the nesting depth of parentheses. The exponential is real: there are queries of length 16 + 16n that are rejected after at least 2^n calls, and queries of length 31 + 27n that are accepted after at least 2^n calls, so no polynomial in the length of the query bounds the work, neither for the accepted queries nor for those rejected with a ParsingError.", "quantifier": "all token lists; all n for the lower bounds", "why_tests_cant": "a test measures a few queries; the bound speaks about all and the lower bound about every size", "anchors": ["sqlvalidator/grammar/lexer.py: FromStatementParser.parse", "sqlvalidator/grammar/lexer.py: SQLStatementParser.parse", "sqlvalidator/grammar/lexer.py: SelectStatementParser.parse", "sqlvalidator/grammar/lexer.py: ExpressionParser.parse"]}
{"id": "C51", "title": "Outside the SQL strings a file is kept character by character", "statement": "Let a list of Python tokens describe a file if the texts stand in the file at the positions the tokens name, with white space between them that consists of blanks (or continued lines directly after a token), of the indentation of the block and blanks in front of the first token of a line, or of fewer blanks than the indentation. Then putting the tokens together gives the file; the content computed for the file is the file with other texts for SQL strings and nothing else changed, and the file itself if no query changed; the new content is again described by the tokens written (with new positions), and if the SQL strings hold statements of the fragment, a second run changes nothing. With tabs between tokens or blanks in front of a backslash it is not so: this white space is replaced.", "quantifier": "all files, tokens, indentations and outcomes of the formatter", "why_tests_cant": "tests have a handful of files; the claim is about every file, and positions after a literal that grew by lines are never looked at", "anchors": ["sqlvalidator/file_handler.py: compute_file_content", "CPython Lib/tokenize.py: Untokenizer"]}
{"id": "C52", "title": "Which exceptions reach the caller", "statement": "Parsing a text raises only StopIteration, AssertionError, ValueError, IndexError, RecursionError or a ParsingError with one of six messages; apart from StopIteration each is explained by particular words in the text (for example AssertionError by [, CASE, CAST, ARRAY_AGG, FILTER, REPLACE, WITH or UNNEST). Formatting adds AttributeError, TypeError and IndexError, each explained by a part of the parsed query. is_valid() raises AttributeError, TypeError, IndexError or what the parser raises, never a ParsingError, whatever happened to the object before.", "quantifier": "all texts; all states of a query object; all iteration orders of sets", "why_tests_cant": "Tests show that some malformed text raises some exception. They cannot show that no text raises anything else, nor that a text without the listed words cannot raise it.", "anchors": ["sqlvalidator/grammar/lexer.py:62-977", "sqlvalidator/grammar/tokeniser.py:28-190", "sqlvalidator/grammar/sql.py", "sqlvalidator/sql_validator.py:14-33"]}
{"id": "C53", "title": "Python reads the new file as the tokens that were written", "statement": "Take the tokens of a file from Python's own tokenizer. For an ordinary file (last line complete; no carriage returns; tabs and form feeds only in strings and comments; a backslash that continues a line directly behind a token; no tokenizer error) the tokens describe the file in the sense of C51. If each SQL string is rewritten to one literal (C43 says when), the new content is read without error as exactly the tokens written, types and texts. So --format followed by --check-format reports nothing and changes nothing, for ordinary files whose SQL strings spell statements of the fragment without the quote character of the literal and without backslashes; nothing is assumed about how the written file is read. For other queries the written file may not be Python any more. Tokenizing raises only TokenError and IndentationError.", "quantifier": "all files, all sets of files, all options, any classification of non-ASCII characters", "why_tests_cant": "That rewriting a string in the middle of a file leaves the reading of the rest of the file alone depends on all that may stand around it (brackets, comments with quotes, strings of several lines, continued lines); tests look at a few files.", "anchors": ["sqlvalidator/file_handler.py:239-338", "sqlvalidator/file_handler.py:341-394", "sqlvalidator/file_handler.py:67-237"]}
{"id": "C54", "title": "Parser and formatter take everything from the query, each token once and in order", "statement": "For every text that is parsed: the fields of the tree (names, words, operators, numbers, truth values, literals), read left to right as SQL writes them, are written by tokens of the text in the same order, and no token is used twice. So a name is in the tree at most as often as in the query. The formatted text is, apart from blanks, line ends, commas and brackets, a sequence of such pieces: nothing is invented, doubled or moved, provided the text has no repr of a SELECT in it. The converse is false: a token may be lost (select a || b || xyz loses xyz). Quote marks are an exception: the text may have more of them than the query.", "quantifier": "all texts, also malformed ones", "why_tests_cant": "The claim is about every text the tolerant parser accepts, valid SQL or not; tests compare the output for chosen valid queries.", "anchors": ["sqlvalidator/grammar/lexer.py:62-977", "sqlvalidator/grammar/sql.py"]}
{"id": "C55", "title": "What the command line means", "statement": "For every list of arguments: it is accepted exactly if it is a block of file names (behind -- anything is one) with options around it, each of the four options given in full or by an unambiguous abbreviation, and not both of an exclusive pair; then exactly these files and options are used. If at least one option is given the files are handled; in all other cases nothing is read or written and the status is 2, or 0 after an argument that asks for help or the version. No file is written unless an argument before any -- is --format or an abbreviation of it. Options may stand before or behind the files; standing between them they make the command fail.", "quantifier": "all lists of arguments, all file systems", "why_tests_cant": "Tests run a handful of command lines; abbreviations, negative numbers, names with blanks, -- and option clusters multiply.", "anchors": ["sqlvalidator/main.py:8-58"]}
{"id": "C56", "title": "Reported line numbers are right", "statement": "For every file the tokenizer reads, with or without errors: its string tokens stand in the file in order and without overlap, each on the line its position names. So in every run with --verbose-validate each printed line number is the number of a line of the file read last, as it was when it was read, on which an SQL literal begins that has the printed errors; every report is printed; the numbers of a file do not decrease. If --format is given in the same run the numbers are those of the old file, not of the new one.", "quantifier": "all file contents, all runs", "why_tests_cant": "Line counting must hold through triple quotes, continued lines, brackets, comments and broken strings in any combination; tests fix a few files.", "anchors": ["sqlvalidator/file_handler.py:180-333"]}
{"id": "C57", "title": "--check-format announces exactly what --format does", "statement": "For all inputs of which none is one file under two paths and all can be written: --check-format and --format print the same lines but for the announced changes, each announced change is made, the totals are the same, and --check-format ends with 1 exactly if --format writes a file (or itself ends with 1 because of --validate). After --format, on ordinary files with simple queries, --check-format finds nothing and a second --format writes nothing.", "quantifier": "all file systems, inputs, contents, validation options", "why_tests_cant": "It relates separate runs of the program over the same arbitrary directory; tests run one mode at a time on one file.", "anchors": ["sqlvalidator/file_handler.py:67-101", "sqlvalidator/file_handler.py:104-236", "sqlvalidator/file_handler.py:405-433"]}
{"id": "C58", "title": "Formatting and validation do not influence each other", "statement": "The new content of a file is the same with and without validation, and its reported errors are the same with and without formatting. So in runs in which no file fails, --format changes the same files in the same way and says so in the same lines whether or not --validate is given, and validation prints the same lines and gives the same status whether or not --format is given. If a file fails this is false in both directions.", "quantifier": "all file systems, inputs, contents, options", "why_tests_cant": "Every combination of options over every content would have to be run and compared.", "anchors": ["sqlvalidator/file_handler.py:181-236", "sqlvalidator/file_handler.py:239-338", "sqlvalidator/file_handler.py:67-101"]}
{"id": "C59", "title": "What happens to a file does not depend on the other inputs", "statement": "For all inputs of which none is one file under two paths: a file that is read ends with the content, and the lines about it are the lines, of a run on it alone; files that are not read keep their content; the status is 1 exactly if it is 1 for one of the files alone; and if the files are given in another order the status and contents are the same and the lines are the same up to order.", "quantifier": "all file systems, inputs and their orders, contents, options", "why_tests_cant": "The runs share a set of seen files and counters; independence is a statement about all lists of inputs.", "anchors": ["sqlvalidator/file_handler.py:45-66", "sqlvalidator/file_handler.py:67-101", "sqlvalidator/file_handler.py:104-236"]}
{"id": "C60", "title": "Which parts of a query validation looks at", "statement": "A query in a FROM clause, at any depth, contributes all the messages it has when it stands alone. The messages about LIMIT, OFFSET, positions in GROUP BY and ORDER BY and missing join conditions are exactly those deserved by parts that are looked at: the select list, WHERE, HAVING, ORDER BY and FROM of looked-at queries, and the parts of calls, parentheses, aliases, comparisons, AND/OR, FILTER and OVER. Every other message is about such a part too. Sides of joins, set operations, NOT, CASE and arithmetic are not looked at.", "quantifier": "all statements", "why_tests_cant": "Errors may sit at any depth of nesting; tests have depth one or two.", "anchors": ["sqlvalidator/grammar/sql.py:126-148", "sqlvalidator/grammar/sql.py:247-248", "sqlvalidator/grammar/sql.py:1000-1004", "sqlvalidator/grammar/sql.py:1308-1312", "sqlvalidator/grammar/sql.py:1437-1508"]}
{"id": "C61", "title": "Formatting does not change what --validate says of a project", "statement": "A project is validated, formatted with --format, and validated again. If its files are ordinary, their SQL strings are literals around queries of the fragment with no column called like a word that the printer puts in upper case, and the first validation reported no failed file, then the second validation prints the same lines and ends with the same exit status. With -vv only the source line numbers of the queries may differ. The formatted files are again ordinary.", "quantifier": "all projects without links, all such files, any validation options, any way of formatting", "why_tests_cant": "Three runs of the program over files that are rewritten in between: the tokenizer, the parser, the printer, the validator and the bookkeeping must agree.", "anchors": ["sqlvalidator/file_handler.py:1-430", "sqlvalidator/sql_formatter.py:1-6", "sqlvalidator/sql_validator.py:1-38"]}
{"id": "C62", "title": "Exactly when is_valid() raises", "statement": "For a SELECT of the fragment without queries and () as conditions, without quoted aliases and () in FROM, and without grouping by a name that several fields have, is_valid() raises exactly when one of the parts that validation looks at is a CAST, a query with LIMIT ALL, a query whose LIMIT or OFFSET is () or a query, a query with () in GROUP BY or ORDER BY, or a window whose ORDER BY has () or a positive number. A part of this kind that validation looks at makes is_valid() raise for every SELECT. The same constructs elsewhere (the ON of a join, GROUP BY, LIMIT) do no harm.", "quantifier": "all query texts that parse to a SELECT, all orders of iteration over a set", "why_tests_cant": "An if-and-only-if over all statements and all nestings: tests show single queries that raise or answer.", "anchors": ["sqlvalidator/grammar/sql.py:126-148", "sqlvalidator/grammar/sql.py:317-345", "sqlvalidator/grammar/sql.py:430-443", "sqlvalidator/grammar/sql.py:464-488", "sqlvalidator/grammar/sql.py:727-735", "sqlvalidator/sql_validator.py:1-60"]}
{"id": "C63", "title": "Which files a run complains about", "statement": "A run over ordinary Python files whose SQL strings hold SELECTs of the fragment with settled names (C62), with any options: the run prints an exception for a file exactly when a query in it that is to be validated has a part that validation looks at and that makes is_valid() raise. Without --validate and without verbose validation no file fails.", "quantifier": "all projects in which every file has one name, all such files, all options", "why_tests_cant": "End to end over the tokenizer, the literals, the parser, the printer, the validator and the bookkeeping of the run, for all projects.", "anchors": ["sqlvalidator/file_handler.py:13-195", "sqlvalidator/file_handler.py:239-394", "sqlvalidator/sql_validator.py:1-60", "sqlvalidator/grammar/sql.py:126-148"]}
{"id": "C64", "title": "The exact answer of is_valid() for queries on tables", "statement": "For a SELECT with a FROM clause, whose other clauses are of the fragment and in which every FROM clause that validation looks at holds tables, joins of tables and parentheses around these, without aliases: is_valid() raises exactly when something it looks at is stuck (C62) or a query or () is used as a condition; otherwise it is False exactly when something it looks at is faulty (a string, number, NULL or arithmetic as a condition; a LIMIT or OFFSET that is no non-negative number; a position outside the select list; a join without ON and USING), and True exactly when nothing is.", "quantifier": "all query texts whose parse lies in the fragment, all orders of sets", "why_tests_cant": "Both directions for all three outcomes at any depth of nesting; a test only checks the outcomes for chosen queries.", "anchors": ["sqlvalidator/grammar/sql.py:126-173", "sqlvalidator/grammar/sql.py:254-258", "sqlvalidator/grammar/sql.py:273-345", "sqlvalidator/grammar/sql.py:360-366", "sqlvalidator/grammar/sql.py:430-488", "sqlvalidator/grammar/sql.py:1308-1336", "sqlvalidator/grammar/sql.py:1495-1508"]}
{"id": "C65", "title": "What --validate says of files whose queries are on tables", "statement": "A validating run over ordinary Python files whose SQL strings hold SELECTs of the fragment on tables, with or without aliases (C66): the run prints an exception for a file exactly when one of its queries that are to be validated halts validation; for every other file the number that is printed is the number of its faulty queries (a name that no table in scope can have is a fault) that are to be validated; and without --check-format the exit status is 1 exactly when a file that can be analysed has such a faulty query, else 0.", "quantifier": "all projects in which every file has one name, all such files, all options that validate", "why_tests_cant": "End to end over the tokenizer, the literals, the parser, the validator and the bookkeeping of the run, for all projects, in both directions.", "anchors": ["sqlvalidator/file_handler.py:13-195", "sqlvalidator/file_handler.py:239-394", "sqlvalidator/main.py:8-58", "sqlvalidator/sql_validator.py:1-60", "sqlvalidator/grammar/sql.py:126-173"]}
{"id": "C66", "title": "The exact answer of is_valid() for queries on tables with and without aliases", "statement": "For a SELECT whose clauses other than FROM are of the fragment and whose FROM clauses, at every depth that is looked at, hold tables and joins of tables, with bare words as aliases or without, or are absent: is_valid() raises exactly when something that is looked at halts validation; otherwise it answers False exactly when something that is looked at is faulty, or is a column, a dotted name or a name in GROUP BY that no table in its scope can have, and True exactly when nothing is.", "quantifier": "all queries of this form, all orders of sets", "why_tests_cant": "An equivalence over all such queries at every depth of nesting and every scope; a test sees single queries, and in one direction only.", "anchors": ["sqlvalidator/grammar/sql.py:126-173", "sqlvalidator/grammar/sql.py:254-345", "sqlvalidator/grammar/sql.py:350-366", "sqlvalidator/grammar/sql.py:425-488", "sqlvalidator/grammar/sql.py:786-834", "sqlvalidator/grammar/sql.py:1062-1076", "sqlvalidator/grammar/sql.py:1308-1336", "sqlvalidator/grammar/sql.py:1495-1508"]}
{"id": "C67", "title": "The exact messages for queries on tables with and without aliases", "statement": "For the queries of C66, when validation ends: a message is given exactly when something that is looked at deserves it. It says of LIMIT, OFFSET, a position or a join what is wrong with it; of a value used as a condition by WHERE, HAVING, AND or OR which Python type it has; of a column, a dotted name or a name in GROUP BY that no table in its scope can have that it was not found. And a run with --verbose-validate over the files of C65 prints, for each faulty query that is to be validated in a file that can be analysed, the line on which it begins with exactly the messages the query deserves, and prints no other such lines.", "quantifier": "all queries of this form, all messages, all orders of sets; all runs over such files", "why_tests_cant": "An equivalence for every message over all such queries, at every depth of nesting and in every scope, and over all projects; a test compares the messages of single queries.", "anchors": ["sqlvalidator/grammar/sql.py:126-173", "sqlvalidator/grammar/sql.py:254-345", "sqlvalidator/grammar/sql.py:350-366", "sqlvalidator/grammar/sql.py:425-488", "sqlvalidator/grammar/sql.py:786-834", "sqlvalidator/grammar/sql.py:1062-1076", "sqlvalidator/grammar/sql.py:1308-1336", "sqlvalidator/grammar/sql.py:1495-1508", "sqlvalidator/file_handler.py:221-228", "sqlvalidator/file_handler.py:271-310"]}
{"id": "C68", "title": "The names reported as not found or ambiguous are exactly those", "statement": "In a SELECT whose FROM clauses, as far as validation looks at them, each provide a scope (tables, derived tables, joins and parentheses, with and without aliases): when validation ends, it says of a column, of a dotted name or of a name in GROUP BY that it was not found exactly when that name is looked up in a scope that does not have it: no table without alias is in scope, no entry is written like the name, and for GROUP BY the select list does not define it without AS. And it says of a column that it is ambiguous exactly when two aliases of a scope in which it is looked up have it, provided that no alias has it twice.", "quantifier": "all statements of this form, all messages of the three kinds, all orders of sets", "why_tests_cant": "An equivalence for every name over all such statements, with derived tables at every depth; a test compares the messages of single queries.", "anchors": ["sqlvalidator/grammar/sql.py: Column.validate", "sqlvalidator/grammar/sql.py: ChainedColumns.validate", "sqlvalidator/grammar/sql.py: GroupByClause.validate", "sqlvalidator/grammar/sql.py: SelectStatement.validate, known_fields", "sqlvalidator/grammar/sql.py: Join.known_fields, Alias.known_fields"]}
{"id": "C69", "title": "The exact messages and the exact answer with derived tables", "statement": "A SELECT whose FROM clauses, as far as validation looks at them, each provide a scope (tables, derived tables, joins and parentheses, with and without aliases), in which no condition of WHERE, HAVING, AND or OR is itself the name of something in its scope, and no alias has a column twice that is looked up. When validation ends, a message is given exactly when something that is looked at deserves it: a LIMIT, OFFSET, position or join that is wrong, a value used as a condition, a name that its scope does not have, a column that two aliases of its scope have. When is_valid() answers, it says True exactly when nothing deserves a message. Under the conditions of C62, it raises exactly when something stuck is looked at, and answers otherwise.", "quantifier": "all statements of this form, all messages, all orders of sets", "why_tests_cant": "An equivalence for every message over all such statements, with derived tables at every depth and in every scope; a test compares the messages of single queries.", "anchors": ["sqlvalidator/grammar/sql.py: SelectStatement.validate, known_fields", "sqlvalidator/grammar/sql.py: Column.validate", "sqlvalidator/grammar/sql.py: ChainedColumns.validate", "sqlvalidator/grammar/sql.py: GroupByClause.validate", "sqlvalidator/grammar/sql.py: WhereClause.validate, HavingClause.validate, BooleanCondition.validate", "sqlvalidator/grammar/sql.py: LimitClause.validate, OffsetClause.validate, OrderByClause.validate, Join.validate", "sqlvalidator/sql_validator.py: SQLQuery.is_valid"]}
