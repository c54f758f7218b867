{
 "C01": {
  "status": "proved",
  "note": "for texts in which every backslash precedes an ordinary character; refuted for a trailing backslash"
 },
 "C02": {
  "status": "proved",
  "note": "for at least one word, also around literals; for no words refuted"
 },
 "C03": {
  "status": "proved",
  "note": "constant bound 21; divergence proved for an escaped quote or separator"
 },
 "C04": {
  "status": "proved",
  "note": "for contents without a quote that delimits another literal, and one escaped quote; refuted otherwise"
 },
 "C05": {
  "status": "proved",
  "note": ""
 },
 "C06": {
  "status": "proved",
  "note": ""
 },
 "C07": {
  "status": "proved",
  "note": ""
 },
 "C08": {
  "status": "proved",
  "note": ""
 },
 "C09": {
  "status": "proved",
  "note": "for the fragment of Grammar.v (statement n), any number of literals, clauses, joins, nested queries; refuted outside it by witnesses"
 },
 "C10": {
  "status": "proved",
  "note": "for the fragment of Grammar.v (statement n), any number of literals, clauses, joins, nested queries; refuted outside it by witnesses"
 },
 "C11": {
  "status": "proved",
  "note": "for the fragment of Grammar.v (statement n), any number of literals, clauses, joins, nested queries; refuted outside it by witnesses"
 },
 "C12": {
  "status": "proved",
  "note": "for the fragment of Grammar.v (statement n), any number of literals, clauses, joins, nested queries; refuted outside it by witnesses"
 },
 "C13": {
  "status": "proved",
  "note": "for the fragment of Grammar.v (statement n), any number of literals, clauses, joins, nested queries; refuted outside it by witnesses"
 },
 "C14": {
  "status": "proved",
  "note": "SELECT of any digit sequence, and every integer position of the fragment; CPython's limit of 4300 digits is not modelled"
 },
 "C15": {
  "status": "proved",
  "note": "for queries of the fragment: the text of a nested query stands in the output as a block of lines, each indented by at least its depth; the inner query's own lines are kept. A query that is itself an operand of a broken AND/OR may stay on the operator's line (refuted by a witness)"
 },
 "C16": {
  "status": "proved",
  "note": "exact texts of conditions, of the WHERE clause and of calls; the keyword and the indentation are not counted, so a printed line may be longer than 88 (refuted by a witness)"
 },
 "C17": {
  "status": "proved",
  "note": ""
 },
 "C18": {
  "status": "proved",
  "note": "for the positions named; the unrestricted form is refuted by a witness"
 },
 "C19": {
  "status": "proved",
  "note": ""
 },
 "C20": {
  "status": "proved",
  "note": ""
 },
 "C21": {
  "status": "proved",
  "note": ""
 },
 "C22": {
  "status": "proved",
  "note": "per join and for the FROM join; a join nested in a join is never checked (refuted by a witness)"
 },
 "C23": {
  "status": "proved",
  "note": "under the proviso; refuted without it"
 },
 "C24": {
  "status": "proved",
  "note": "for the stated class of statements (and for texts the parser rejects); refuted in general, with one witness for each exclusion"
 },
 "C25": {
  "status": "proved",
  "note": "the case of a first call that raised is characterised separately"
 },
 "C26": {
  "status": "proved",
  "note": ""
 },
 "C27": {
  "status": "proved",
  "note": ""
 },
 "C28": {
  "status": "proved",
  "note": ""
 },
 "C29": {
  "status": "proved",
  "note": ""
 },
 "C30": {
  "status": "proved",
  "note": ""
 },
 "C31": {
  "status": "proved",
  "note": ""
 },
 "C32": {
  "status": "proved",
  "note": "exact reports, and non-interference of a protected string"
 },
 "C33": {
  "status": "proved",
  "note": ""
 },
 "C34": {
  "status": "proved",
  "note": ""
 },
 "C35": {
  "status": "proved",
  "note": "for failures before writing (a failing write may leave a half-written file)"
 },
 "C36": {
  "status": "proved",
  "note": "C36_format_then_check: stability of the strings is a hypothesis on the files at hand; C36_format_then_check_fragment proves it for files whose SQL strings hold statements of the fragment. That Python reads the written content back as the tokens written is a hypothesis here, for any tokenizer; C53 proves it for CPython's."
 },
 "C37": {
  "status": "proved",
  "note": ""
 },
 "C38": {
  "status": "proved",
  "note": ""
 },
 "C39": {
  "status": "proved",
  "note": ""
 },
 "C40": {
  "status": "proved",
  "note": "for statements that obey the scope rules of SpecScope (tables, subqueries, joins, unquoted aliases, stars over subqueries, correlated subqueries); false without these restrictions, refuted by witnesses"
 },
 "C41": {
  "status": "proved",
  "note": "for statements of the fragment without a column among the upper-cased words; refuted without the latter"
 },
 "C42": {
  "status": "proved",
  "note": "for statements of the fragment; refuted outside it"
 },
 "C43": {
  "status": "proved",
  "note": "proved for statements of the fragment without the quote character; refuted without that condition (C43_any_text_refuted)"
 },
 "C44": {
  "status": "proved",
  "note": "proved for fields that are plain tokens; refuted for the others (C44_any_field_refuted)"
 },
 "C45": {
  "status": "proved",
  "note": "proved for parameters that are one token and no function name; refuted for %(name)s (C45_named_refuted)"
 },
 "C46": {
  "status": "proved",
  "note": "proved for single literals; refuted for adjacent literals (C46_joined_literals_refuted)"
 },
 "C47": {
  "status": "proved",
  "note": "proved for statements of the fragment and for tidy trees; refuted without these conditions (C47_any_query_refuted)"
 },
 "C48": {
  "status": "proved",
  "note": "Cost.v is the printer in a monad that counts; C48_same_text shows that it prints the same text. C48_polynomial_refuted refutes the polynomial bound."
 },
 "C49": {
  "status": "proved",
  "note": "Converse of C40 and generalisation of C18 to joins, aliases and nested queries. C49_everywhere_refuted has the places where names are not looked up."
 },
 "C50": {
  "status": "proved",
  "note": "Counting copy of the parser (ParseCost.v), proved to return the same result. Calls of the four recursive parsers are counted; the work of the token helpers within one call is not."
 },
 "C51": {
  "status": "proved",
  "note": "untokenize is modelled after CPython 3.7-3.11. The tokens are an input; the relation tokens_of_file says what is assumed of CPython's tokenizer (checked outside Coq: it holds for all 16 files of the repository and 1206 of 1316 files of the standard library of Python 3.11, the others have blanks before a backslash or a tab)."
 },
 "C52": {
  "status": "proved",
  "note": "parse_sql is covered completely (StopIteration has no condition on the text); each exception has a witness. For is_valid only the kinds of exception are given, not their causes (C24 gives a fragment that raises nothing). The recursion limit of CPython, MemoryError and the 4300-digit limit of int() are not modelled."
 },
 "C53": {
  "status": "proved",
  "note": "C53_described, C53_read_back (any queries that become one literal), C53_any_query_refuted, C53_format_then_check (end to end), C53_exceptions. The tokenizer is that of CPython 3.8-3.11, modelled in PyTokenize.v."
 },
 "C54": {
  "status": "proved",
  "note": "C54_taken, C54_names, C54_formatted; C54_repr_refuted, C54_everything_refuted, C54_quotes_refuted show the limits. Commas and brackets are not counted."
 },
 "C55": {
  "status": "proved",
  "note": "argparse of CPython 3.11 is modelled for this parser, without the texts it prints. C55_command, C55_run, C55_handled, C55_written, C55_order; C55_between_refuted shows that an option between files is refused."
 },
 "C56": {
  "status": "proved",
  "note": "For the tokenizer of PyTokenize.v (CPython 3.8-3.11). C56_tokens, C56_file, C56_printed, C56_all_printed; C56_new_file_refuted shows that the numbers are not those of the new file."
 },
 "C57": {
  "status": "proved",
  "note": "C57_announced, C57_settled; C57_links_refuted shows the hypothesis on paths is needed: a file under two paths is announced twice and changed once."
 },
 "C58": {
  "status": "proved",
  "note": "C58_format, C58_validate (one file), C58_run_format, C58_run_validate (runs); C58_format_refuted and C58_validate_refuted are the two interferences when a query raises: a validation exception prevents formatting, a formatting exception hides an invalid query."
 },
 "C59": {
  "status": "proved",
  "note": "C59_file, C59_others, C59_status; C59_order needs each file to be given under one name."
 },
 "C60": {
  "status": "proved",
  "note": "C60_from, C60_clauses (both directions), C60_only; C60_everywhere_refuted has one invalid query in each of the places that are not looked at."
 },
 "C61": {
  "status": "proved",
  "note": "C61_same_verdict, C61_ordinary_again; C61_any_column_refuted: a project with a column named monday has no invalid query before formatting and one after it."
 },
 "C62": {
  "status": "proved",
  "note": "C62_raises_exactly, C62_stuck_raises (no fragment); C62_any_names_refuted: queries that violate a condition on names and raise though nothing in them is stuck."
 },
 "C63": {
  "status": "proved",
  "note": "C63_failed_files, C63_formatting_never_fails."
 },
 "C64": {
  "status": "proved",
  "note": "C64_tables_answer."
 },
 "C65": {
  "status": "proved",
  "note": "C65_exit_status, C65_failed, C65_counted. Joins without a condition are outside the fragment of this property (C64 and C66 cover them); so are names in GROUP BY that contain a star."
 },
 "C66": {
  "status": "proved",
  "note": "C66_named_answer. Extends C64 to aliases and to queries without FROM. The scopes are those of C49 (SpecScope, SpecReport). Names in GROUP BY that contain a star, aliases that are strings, and derived tables in FROM are outside."
 },
 "C67": {
  "status": "proved",
  "note": "C67_named_messages, C67_verbose, C67_verbose_only. Which messages there are, not their order or number. What is outside C66 and C65 is outside here."
 },
 "C68": {
  "status": "proved",
  "note": "C68_lost_exactly, C68_ambiguous_exactly; the latter is false when an alias has the column twice, with two types (C68_ambiguous_anyway_refuted). A dotted name is compared as text."
 },
 "C69": {
  "status": "proved",
  "note": "C69_messages, C69_answer, C69_settled_answer. Which messages there are, not their order or number. When is_valid() raises is known under the conditions of C62 (C69_settled_answer). A column of a derived table as a condition is outside: its type is that of the expression in the derived table."
 }
}