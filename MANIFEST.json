{
 "claims": [
  {
   "property": "C01",
   "status": "proved",
   "theorems": [
    "C01_tokens_lossless",
    "C01_tokens_exact",
    "C01_trailing_backslash_refuted"
   ],
   "note": "for texts in which every backslash precedes an ordinary character; refuted for a trailing backslash"
  },
  {
   "property": "C02",
   "status": "proved",
   "theorems": [
    "C02_layout_does_not_matter",
    "C02_layout_around_literals",
    "C02_no_words_refuted"
   ],
   "note": "for at least one word, also around literals; for no words refuted"
  },
  {
   "property": "C03",
   "status": "proved",
   "theorems": [
    "C03_bounded_depth",
    "C03_escaped_quote_refuted",
    "C03_escaped_separator_refuted"
   ],
   "note": "constant bound 21; divergence proved for an escaped quote or separator"
  },
  {
   "property": "C04",
   "status": "proved",
   "theorems": [
    "C04_literals_verbatim",
    "C04_escaped_quote",
    "C04_mixed_quotes_refuted",
    "C04_two_escapes_refuted"
   ],
   "note": "for contents without a quote that delimits another literal, and one escaped quote; refuted otherwise"
  },
  {
   "property": "C05",
   "status": "proved",
   "theorems": [
    "C05_token_shape"
   ],
   "note": ""
  },
  {
   "property": "C06",
   "status": "proved",
   "theorems": [
    "C06_joins_pairs",
    "C06_no_error_of_its_own",
    "C06_operator_joined"
   ],
   "note": ""
  },
  {
   "property": "C07",
   "status": "proved",
   "theorems": [
    "C07_parser_terminates",
    "C07_format_terminates"
   ],
   "note": ""
  },
  {
   "property": "C08",
   "status": "proved",
   "theorems": [
    "C08_other_statement",
    "C08_formatted_statement"
   ],
   "note": ""
  },
  {
   "property": "C09",
   "status": "proved",
   "theorems": [
    "C09_semicolon_kept",
    "C09_any_query_refuted"
   ],
   "note": "for the fragment of Grammar.v (statement n), any number of literals, clauses, joins, nested queries; refuted outside it by witnesses"
  },
  {
   "property": "C10",
   "status": "proved",
   "theorems": [
    "C10_keyword_case",
    "C10_any_query_refuted"
   ],
   "note": "for the fragment of Grammar.v (statement n), any number of literals, clauses, joins, nested queries; refuted outside it by witnesses"
  },
  {
   "property": "C11",
   "status": "proved",
   "theorems": [
    "C11_tokens_kept",
    "C11_tokens_kept_up_to_case",
    "C11_any_query_refuted",
    "C11_comments_refuted"
   ],
   "note": "for the fragment of Grammar.v (statement n), any number of literals, clauses, joins, nested queries; refuted outside it by witnesses"
  },
  {
   "property": "C12",
   "status": "proved",
   "theorems": [
    "C12_idempotent",
    "C12_any_query_refuted"
   ],
   "note": "for the fragment of Grammar.v (statement n), any number of literals, clauses, joins, nested queries; refuted outside it by witnesses"
  },
  {
   "property": "C13",
   "status": "proved",
   "theorems": [
    "C13_literals_kept",
    "C13_line_break_refuted"
   ],
   "note": "for the fragment of Grammar.v (statement n), any number of literals, clauses, joins, nested queries; refuted outside it by witnesses"
  },
  {
   "property": "C14",
   "status": "proved",
   "theorems": [
    "C14_integer",
    "C14_negative_integer",
    "C14_numeral_unique",
    "C14_integers_kept"
   ],
   "note": "SELECT of any digit sequence, and every integer position of the fragment; CPython's limit of 4300 digits is not modelled"
  },
  {
   "property": "C15",
   "status": "proved",
   "theorems": [
    "C15_nested_query",
    "C15_any_operand_refuted"
   ],
   "note": "for queries of the fragment: the text of a nested query stands in the output as a block of lines, each indented by at least its depth; the inner query's own lines are kept. A query that is itself an operand of a broken AND/OR may stay on the operator's line (refuted by a witness)"
  },
  {
   "property": "C16",
   "status": "proved",
   "theorems": [
    "C16_short_condition",
    "C16_condition",
    "C16_where",
    "C16_call",
    "C16_no_long_line_refuted"
   ],
   "note": "exact texts of conditions, of the WHERE clause and of calls; the keyword and the indentation are not counted, so a printed line may be longer than 88 (refuted by a witness)"
  },
  {
   "property": "C17",
   "status": "proved",
   "theorems": [
    "C17_schemaless"
   ],
   "note": ""
  },
  {
   "property": "C18",
   "status": "proved",
   "theorems": [
    "C18_missing_column_reported",
    "C18_missing_group_column_reported",
    "C18_refuted"
   ],
   "note": "for the positions named; the unrestricted form is refuted by a witness"
  },
  {
   "property": "C19",
   "status": "proved",
   "theorems": [
    "C19_limit",
    "C19_offset"
   ],
   "note": ""
  },
  {
   "property": "C20",
   "status": "proved",
   "theorems": [
    "C20_group_positions",
    "C20_order_positions",
    "C20_group_position_reported",
    "C20_order_position_reported"
   ],
   "note": ""
  },
  {
   "property": "C21",
   "status": "proved",
   "theorems": [
    "C21_where",
    "C21_having"
   ],
   "note": ""
  },
  {
   "property": "C22",
   "status": "proved",
   "theorems": [
    "C22_join",
    "C22_from_join_reported",
    "C22_nested_join_refuted"
   ],
   "note": "per join and for the FROM join; a join nested in a join is never checked (refuted by a witness)"
  },
  {
   "property": "C23",
   "status": "proved",
   "theorems": [
    "C23_order_independent",
    "C23_refuted"
   ],
   "note": "under the proviso; refuted without it"
  },
  {
   "property": "C24",
   "status": "proved",
   "theorems": [
    "C24_is_valid_answers",
    "C24_rejected_is_invalid",
    "C24_refuted"
   ],
   "note": "for the stated class of statements (and for texts the parser rejects); refuted in general, with one witness for each exclusion"
  },
  {
   "property": "C25",
   "status": "proved",
   "theorems": [
    "C25_is_valid_stable",
    "C25_after_exception_answers_true"
   ],
   "note": "the case of a first call that raised is characterised separately"
  },
  {
   "property": "C26",
   "status": "proved",
   "theorems": [
    "C26_format_history_independent"
   ],
   "note": ""
  },
  {
   "property": "C27",
   "status": "proved",
   "theorems": [
    "C27_no_write_without_format",
    "C27_writes"
   ],
   "note": ""
  },
  {
   "property": "C28",
   "status": "proved",
   "theorems": [
    "C28_exit_status",
    "C28_usage_errors",
    "C28_verbose_alone"
   ],
   "note": ""
  },
  {
   "property": "C29",
   "status": "proved",
   "theorems": [
    "C29_each_file_once"
   ],
   "note": ""
  },
  {
   "property": "C30",
   "status": "proved",
   "theorems": [
    "C30_only_sql_strings_change",
    "C30_sql_string_formatted"
   ],
   "note": ""
  },
  {
   "property": "C31",
   "status": "proved",
   "theorems": [
    "C31_nosqlformat_protects"
   ],
   "note": ""
  },
  {
   "property": "C32",
   "status": "proved",
   "theorems": [
    "C32_reports",
    "C32_nosqlvalidation_protects"
   ],
   "note": "exact reports, and non-interference of a protected string"
  },
  {
   "property": "C33",
   "status": "proved",
   "theorems": [
    "C33_change_count"
   ],
   "note": ""
  },
  {
   "property": "C34",
   "status": "proved",
   "theorems": [
    "C34_prefix_and_quotes_kept"
   ],
   "note": ""
  },
  {
   "property": "C35",
   "status": "proved",
   "theorems": [
    "C35_failing_file_isolated"
   ],
   "note": "for failures before writing (a failing write may leave a half-written file)"
  },
  {
   "property": "C36",
   "status": "proved",
   "theorems": [
    "C36_format_then_check",
    "C36_literal_stable",
    "C36_format_then_check_fragment"
   ],
   "note": "C36_format_then_check: stability of the strings is a hypothesis on the files at hand; C36_format_then_check_fragment proves it for files whose SQL strings hold statements of the fragment. That Python reads the written content back as the tokens written is a hypothesis here, for any tokenizer; C53 proves it for CPython's."
  },
  {
   "property": "C37",
   "status": "proved",
   "theorems": [
    "C37_totals"
   ],
   "note": ""
  },
  {
   "property": "C38",
   "status": "proved",
   "theorems": [
    "C38_select_string"
   ],
   "note": ""
  },
  {
   "property": "C39",
   "status": "proved",
   "theorems": [
    "C39_errors_have_an_origin"
   ],
   "note": ""
  },
  {
   "property": "C40",
   "status": "proved",
   "theorems": [
    "C40_no_false_alarm",
    "C40_no_false_alarm_refuted"
   ],
   "note": "for statements that obey the scope rules of SpecScope (tables, subqueries, joins, unquoted aliases, stars over subqueries, correlated subqueries); false without these restrictions, refuted by witnesses"
  },
  {
   "property": "C41",
   "status": "proved",
   "theorems": [
    "C41_formatting_keeps_verdict",
    "C41_any_column_refuted"
   ],
   "note": "for statements of the fragment without a column among the upper-cased words; refuted without the latter"
  },
  {
   "property": "C42",
   "status": "proved",
   "theorems": [
    "C42_keyword_case_keeps_verdict",
    "C42_any_query_refuted"
   ],
   "note": "for statements of the fragment; refuted outside it"
  },
  {
   "property": "C43",
   "status": "proved",
   "theorems": [
    "C43_one_literal",
    "C43_any_text_refuted"
   ],
   "note": "proved for statements of the fragment without the quote character; refuted without that condition (C43_any_text_refuted)"
  },
  {
   "property": "C44",
   "status": "proved",
   "theorems": [
    "C44_fields_kept",
    "C44_any_field_refuted"
   ],
   "note": "proved for fields that are plain tokens; refuted for the others (C44_any_field_refuted)"
  },
  {
   "property": "C45",
   "status": "proved",
   "theorems": [
    "C45_parameters_kept",
    "C45_named_refuted"
   ],
   "note": "proved for parameters that are one token and no function name; refuted for %(name)s (C45_named_refuted)"
  },
  {
   "property": "C46",
   "status": "proved",
   "theorems": [
    "C46_value_kept",
    "C46_joined_literals_refuted"
   ],
   "note": "proved for single literals; refuted for adjacent literals (C46_joined_literals_refuted)"
  },
  {
   "property": "C47",
   "status": "proved",
   "theorems": [
    "C47_neat",
    "C47_any_tree",
    "C47_any_query_refuted"
   ],
   "note": "proved for statements of the fragment and for tidy trees; refuted without these conditions (C47_any_query_refuted)"
  },
  {
   "property": "C48",
   "status": "proved",
   "theorems": [
    "C48_same_text",
    "C48_bound",
    "C48_short",
    "C48_exponential",
    "C48_polynomial_refuted"
   ],
   "note": "Cost.v is the printer in a monad that counts; C48_same_text shows that it prints the same text. C48_polynomial_refuted refutes the polynomial bound."
  },
  {
   "property": "C49",
   "status": "proved",
   "theorems": [
    "C49_missing_reported",
    "C49_ambiguous_reported",
    "C49_dotted_reported",
    "C49_group_reported",
    "C49_everywhere_refuted"
   ],
   "note": "Converse of C40 and generalisation of C18 to joins, aliases and nested queries. C49_everywhere_refuted has the places where names are not looked up."
  },
  {
   "property": "C50",
   "status": "proved",
   "theorems": [
    "C50_same_result",
    "C50_linear",
    "C50_nested",
    "C50_exponential",
    "C50_polynomial_refuted",
    "C50_rejected_refuted"
   ],
   "note": "Counting copy of the parser (ParseCost.v), proved to return the same result. Calls of the four recursive parsers are counted; the work of the token helpers within one call is not."
  },
  {
   "property": "C51",
   "status": "proved",
   "theorems": [
    "C51_untokenize",
    "C51_file_kept",
    "C51_unchanged",
    "C51_new_file",
    "C51_formatted_twice",
    "C51_white_space_refuted"
   ],
   "note": "untokenize is modelled after CPython 3.7-3.11. The tokens are an input; the relation tokens_of_file says what is assumed of CPython's tokenizer (checked outside Coq: it holds for all 16 files of the repository and 1206 of 1316 files of the standard library of Python 3.11, the others have blanks before a backslash or a tab)."
  },
  {
   "property": "C52",
   "status": "proved",
   "theorems": [
    "C52_parse",
    "C52_parse_reached",
    "C52_format",
    "C52_is_valid"
   ],
   "note": "parse_sql is covered completely (StopIteration has no condition on the text); each exception has a witness. For is_valid only the kinds of exception are given, not their causes (C24 gives a fragment that raises nothing). The recursion limit of CPython, MemoryError and the 4300-digit limit of int() are not modelled."
  },
  {
   "property": "C53",
   "status": "proved",
   "theorems": [
    "C53_described",
    "C53_read_back",
    "C53_any_query_refuted",
    "C53_format_then_check",
    "C53_exceptions"
   ],
   "note": "C53_described, C53_read_back (any queries that become one literal), C53_any_query_refuted, C53_format_then_check (end to end), C53_exceptions. The tokenizer is that of CPython 3.8-3.11, modelled in PyTokenize.v."
  },
  {
   "property": "C54",
   "status": "proved",
   "theorems": [
    "C54_taken",
    "C54_names",
    "C54_formatted",
    "C54_repr_refuted",
    "C54_everything_refuted",
    "C54_quotes_refuted"
   ],
   "note": "C54_taken, C54_names, C54_formatted; C54_repr_refuted, C54_everything_refuted, C54_quotes_refuted show the limits. Commas and brackets are not counted."
  },
  {
   "property": "C55",
   "status": "proved",
   "theorems": [
    "C55_command",
    "C55_run",
    "C55_handled",
    "C55_written",
    "C55_order",
    "C55_between_refuted"
   ],
   "note": "argparse of CPython 3.11 is modelled for this parser, without the texts it prints. C55_command, C55_run, C55_handled, C55_written, C55_order; C55_between_refuted shows that an option between files is refused."
  },
  {
   "property": "C56",
   "status": "proved",
   "theorems": [
    "C56_tokens",
    "C56_file",
    "C56_printed",
    "C56_all_printed",
    "C56_new_file_refuted"
   ],
   "note": "For the tokenizer of PyTokenize.v (CPython 3.8-3.11). C56_tokens, C56_file, C56_printed, C56_all_printed; C56_new_file_refuted shows that the numbers are not those of the new file."
  },
  {
   "property": "C57",
   "status": "proved",
   "theorems": [
    "C57_announced",
    "C57_links_refuted",
    "C57_settled"
   ],
   "note": "C57_announced, C57_settled; C57_links_refuted shows the hypothesis on paths is needed: a file under two paths is announced twice and changed once."
  },
  {
   "property": "C58",
   "status": "proved",
   "theorems": [
    "C58_format",
    "C58_validate",
    "C58_run_format",
    "C58_run_validate",
    "C58_format_refuted",
    "C58_validate_refuted"
   ],
   "note": "C58_format, C58_validate (one file), C58_run_format, C58_run_validate (runs); C58_format_refuted and C58_validate_refuted are the two interferences when a query raises: a validation exception prevents formatting, a formatting exception hides an invalid query."
  },
  {
   "property": "C59",
   "status": "proved",
   "theorems": [
    "C59_file",
    "C59_others",
    "C59_status",
    "C59_order"
   ],
   "note": "C59_file, C59_others, C59_status; C59_order needs each file to be given under one name."
  },
  {
   "property": "C60",
   "status": "proved",
   "theorems": [
    "C60_from",
    "C60_clauses",
    "C60_only",
    "C60_everywhere_refuted"
   ],
   "note": "C60_from, C60_clauses (both directions), C60_only; C60_everywhere_refuted has one invalid query in each of the places that are not looked at."
  },
  {
   "property": "C61",
   "status": "proved",
   "theorems": [
    "C61_same_verdict",
    "C61_ordinary_again",
    "C61_any_column_refuted"
   ],
   "note": "C61_same_verdict, C61_ordinary_again; C61_any_column_refuted: a project with a column named monday has no invalid query before formatting and one after it."
  },
  {
   "property": "C62",
   "status": "proved",
   "theorems": [
    "C62_raises_exactly",
    "C62_stuck_raises",
    "C62_any_names_refuted"
   ],
   "note": "C62_raises_exactly, C62_stuck_raises (no fragment); C62_any_names_refuted: queries that violate a condition on names and raise though nothing in them is stuck."
  },
  {
   "property": "C63",
   "status": "proved",
   "theorems": [
    "C63_failed_files",
    "C63_formatting_never_fails"
   ],
   "note": "C63_failed_files, C63_formatting_never_fails."
  },
  {
   "property": "C64",
   "status": "proved",
   "theorems": [
    "C64_tables_answer"
   ],
   "note": "C64_tables_answer."
  },
  {
   "property": "C65",
   "status": "proved",
   "theorems": [
    "C65_exit_status",
    "C65_failed",
    "C65_counted"
   ],
   "note": "C65_exit_status, C65_failed, C65_counted. Joins without a condition are outside the fragment of this property (C64 and C66 cover them); so are names in GROUP BY that contain a star."
  },
  {
   "property": "C66",
   "status": "proved",
   "theorems": [
    "C66_named_answer"
   ],
   "note": "C66_named_answer. Extends C64 to aliases and to queries without FROM. The scopes are those of C49 (SpecScope, SpecReport). Names in GROUP BY that contain a star, aliases that are strings, and derived tables in FROM are outside."
  },
  {
   "property": "C67",
   "status": "proved",
   "theorems": [
    "C67_named_messages",
    "C67_verbose",
    "C67_verbose_only"
   ],
   "note": "C67_named_messages, C67_verbose, C67_verbose_only. Which messages there are, not their order or number. What is outside C66 and C65 is outside here."
  },
  {
   "property": "C68",
   "status": "proved",
   "theorems": [
    "C68_lost_exactly",
    "C68_ambiguous_exactly",
    "C68_ambiguous_anyway_refuted"
   ],
   "note": "C68_lost_exactly, C68_ambiguous_exactly; the latter is false when an alias has the column twice, with two types (C68_ambiguous_anyway_refuted). A dotted name is compared as text."
  },
  {
   "property": "C69",
   "status": "proved",
   "theorems": [
    "C69_messages",
    "C69_answer",
    "C69_settled_answer"
   ],
   "note": "C69_messages, C69_answer, C69_settled_answer. Which messages there are, not their order or number. When is_valid() raises is known under the conditions of C62 (C69_settled_answer). A column of a derived table as a condition is outside: its type is that of the expression in the derived table."
  }
 ]
}