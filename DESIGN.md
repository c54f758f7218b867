# Formal model of sqlvalidator in Rocq (Coq 8.16.1)

Everything is in `rocq/theories`.  A reader who wants to know *what* is claimed needs `Prop*.v` (the
theorems), the small `Spec*.v` files and `Grammar.v` (the vocabulary of the theorems), and the eleven model files.
The other files are proofs.

## 1. Trusted base

* Coq's kernel (8.16.1), including its virtual machine: examples and refutations are closed by `vm_compute`.
* **Axioms: none.**  Each theorem in `Prop*.v` is followed by `Print Assumptions`; all of them print
  `Closed under the global context`.  (`coqchk` lists seven constants of `Coq.ssr.ssrunder`; they are the
  sealed module type instance of the standard library's `ssreflect` plugin, which the loaded libraries bring along.  No
  theorem depends on them.)
* No `Admitted`, no axioms, no functors, no module types, no kernel check switched off.
* **The model is faithful to the code.**  This is not proved; it rests on reading.  To make it checkable, every
  definition cites the lines it models, and the repository's own unit tests are transcribed and evaluated on
  the model: `RepoTests.v` (337 assertions of `tests/`, generated by `tools/gen_repo_tests.py`) and
  `FileTests.v` (17, by `tools/gen_file_tests.py`).  `TokenizeTests.v` compares the modelled Python tokenizer with CPython's on 201 texts.  These are tests, not proofs.
* The statements.  `seeded/LOG.jsonl` records edits of the model like those a bug would make, and which
  theorems then fail.

## 2. What is modelled

| source | model | remarks |
|---|---|---|
| `grammar/tokeniser.py` (all) | `Tokeniser.v` | the generators as a list of tokens and the exception that ends it; the recursion on explicit depth |
| `grammar/lexer.py` (all parser classes) | `Parser.v` | branch by branch, mutually recursive through a record of parsers, on fuel |
| `grammar/sql.py`: classes | `Ast.v` | one inductive type; one-field clause objects are represented by their field |
| `grammar/sql.py`: `transform`, `__str__`, `__repr__` | `Render.v` | |
| the same, number of calls | `Cost.v` | `Render.v` with a counter |
| `grammar/lexer.py`, number of calls | `ParseCost.v` | `Parser.v` with two counters; the copy is proved to return the same result |
| `grammar/sql.py`: `validate`, `known_fields`, `return_type`, `resolve_return_type` | `Validate.v` | the iteration order of Python sets is a parameter `ord` |
| `sql_formatter.py`, `sql_validator.py` (all) | `Api.v` | a query object is a record; methods return the new record, also when they raise |
| `file_handler.py` (all) | `FileHandler.v` | the aliased `seen_files` sets live in an explicit heap; output is a trace of events |
| `main.py` | `FileHandler.v`, `main`; `Args.v`, `program` | `main`: after argparse has read the command line; `program`: the whole |
| CPython 3.11: `argparse` | `Args.v` | for the parser of `main.py`: options without arguments, one positional argument with `nargs="+"` |
| CPython: `str`/`int` methods | `PyStr.v` | ASCII case and digits (see below) |
| CPython: `float(text)`, `str(float)` | `PyFloat.v` | exact, in integer arithmetic |
| CPython: `tokenize.Untokenizer` | `PyTokens.v` | the five-tuple path |
| CPython 3.11: `tokenize.generate_tokens` | `PyTokenize.v` | which characters above U+007F belong to words is a parameter `word` |

Exceptions are values: a function that can raise returns `R A = Ok a | Err e`, and `e` distinguishes
`ParsingError`, `AssertionError`, `IndexError`, `AttributeError`, `ValueError`, ...  Running out of fuel is the separate value
`Err OutOfFuel`; C03 and C07 (and `ProofFuel.v` for the whole API) show that it does not occur with the fuel the model supplies, except
where the code itself recurses forever (then `RecursionError`, C03).

## 3. What is not modelled

* `tokenize.generate_tokens` is a parameter of `FileHandler.v` (`gen_tokens`), arbitrary.  C36 therefore has a hypothesis on
  how the written file is read back, and C51 assumes of the tokens that they describe the file (`tokens_of_file`).  C53 removes
  both for the tokenizer of `PyTokenize.v`.  That is the pure Python tokenizer of CPython 3.8 - 3.11; the one of
  3.12 (which takes f-strings apart) is another program.
* The operating system: `isdir`, `isfile`, `walk`, `abspath`, failing `open`/`write` are parameters, arbitrary
  functions.  They do not change during a run; only file contents do.  Text encodings are not modelled: a content is a string.
* The texts argparse prints (help, version, usage errors); only the exit status is modelled.  Negative numbers
  among the arguments (which argparse takes as file names) are recognised for ASCII digits.  Other versions of CPython differ in
  details of `--` and of short options with something behind them; `Args.v` follows 3.11.10.  It was compared with that
  module on 708 command lines (a test, not a proof).
* Python's recursion limit, its limit of 4300 digits for `int` of a text, and memory.  A run of the program may
  raise where the model answers, for very deep or long inputs.
* `str.lower`, `upper` and `isdigit` on characters above U+007F: the model leaves them unchanged.  So it is
  exact for ASCII texts and for texts whose other characters are caseless non-digits.
* `repr` of characters above U+00A0 (used only by `str()` of a bare statement): taken as printable.
* The text of an exception inside the line `error analysing ...`: the event carries the exception.

## 4. The fragment

The properties about formatting (C09-C15, C36, C41-C47) are false for arbitrary texts: see the `_refuted` theorems.
They are proved for the statements `n` with `statement n = true`, a boolean predicate in
`Grammar.v` written without reference to parser or printer.  It has: SELECT with
DISTINCT [ON], ALL, FROM, WHERE, GROUP BY (EACH, ROLLUP), HAVING, ORDER BY, LIMIT, OFFSET, the semicolon; WITH;
joins of all kinds with ON/USING, comma joins, nested queries everywhere, UNNEST, table aliases;
set operations; calls, COUNT(DISTINCT), CAST, ARRAY_AGG, FILTER, OVER with PARTITION/ORDER/frame, EXTRACT, date parts;
comparisons, arithmetic, AND/OR/NOT, BETWEEN, IN, LIKE, IS, CASE, arrays, indexes, EXCEPT/REPLACE columns; strings in three kinds
of quotes, integers, floats, NULL, booleans.
`statement` excludes, for instance: words of the language used as names, strings with brackets or keywords in
places where the parser counts them, strings with line breaks, floats that are printed with an exponent.

## 5. Properties and how they are proved

* C01, C03-C06 (`PropTok.v`): the tokeniser splits on 17 separators one after the other.  `ProofTok2.v` shows
  that the result is that of a one-pass tokeniser; the properties follow by induction on the text.
  Refutations for a trailing backslash, an escaped quote (divergence is proved for *every* depth), mixed quotes.
* C02: the tokens are a function of the words; the API is a function of the tokens.
* C07, C08 (`PropParse.v`): a parser never returns more tokens than it got; linear bound on the depth; by induction on
  fuel over the record of all parsers.  `Ideal.v` then gives parsers without fuel.
* C09-C14 (`PropRound.v`): `entries n` lists the words of the tree `n`; `reads` says how a word may be
  written, `prints` how it is printed.  Theorem 1 (`GramStmt.parse_spelling`): the parser inverts it, for every spelling.
  Theorem 2 (`GramPrint`): the printed text is tokenised into the printed words.
* C15, C16 (`PropLayout.v`): lines of the printed text of nested queries, conditions and calls.
* C17-C23, C39 (`PropVal.v`): `validate` characterised clause by clause; C39 by induction over nodes; C23 quantifies over two iteration orders.
* C24 (`PropAnswer.v`): a class of statements without the eleven constructs that make `validate` raise; one witness for each of them.
* C40 (`PropScope.v`): scope rules written independently (`SpecScope.v`); no message about names for statements that obey them.
* C49 (`PropReport.v`): the converse: which names are looked up in which scope (`SpecReport.v`), and the messages they get.
* C41, C42 (`PropSame.v`): the tree of the printed text differs from the original in the case of stored keywords only, which
  `validate` does not see.
* C60 (`PropNested.v`): `looked` follows the calls of `validate` through a statement; induction over it gives that nothing is lost,
  induction over nodes that nothing else is said.
* C25, C26 (`PropApi.v`): induction over the sequence of method calls on one object.
* C30-C34, C38 (`PropFile.v`): each token of a file and what becomes of it; untokenize as a function of texts and gaps.
* C27-C29, C35, C37 (`PropRun.v`): the program refines a description without heap and counters (`SpecRun.v`).
* C36, C43-C46 (`PropStable.v`): literals around statements of the fragment.
* C52 (`PropRaise.v`): for each parser function, the exceptions it raises given the tokens it can see (`SpecRaise.v`); for
  `render` and `validate`, by induction over nodes.
* C51 (`PropSource.v`): `SpecSource.v` says when tokens describe a file (positions, texts, white space); induction over this
  relation with an invariant between its place in the file and the state of the Untokenizer.
* C53 (`PropTokenize.v`): two files that differ in the texts of strings only are followed in parallel through the steps of the tokenizer
  (`ProofTokenize3.simulation`): each regular expression stops at the first quote, so it matches the same text in both
  (`ProofLex.v`).  Positions differ; types and texts do not depend on them.
  That tabs stand only in strings and comments is said by counting: in the file as often as in the texts of these tokens
  (`ProofInside.v`).
* C54 (`PropTaken.v`): `pieces` lists the fields of a tree, `taken` says that tokens write them in order.  For each parser: the
  tokens it was given are those of the result followed by those it hands back (`ProofTaken.honest`); for `render`, by
  induction over nodes and modes (`ProofSpelled2.says_all`).  Nothing is assumed about the query.
* C55 (`PropArgs.v`): `command` describes the accepted command lines by prefixes of the option names, without marks or
  loops.  Both directions are proved: the loop of argparse accepts nothing else (`loop_before`), and all of these (`run_all`).
  An abbreviation `means` an option if it has three characters or more and no other option begins with it.  The statement about
  written files follows from C27.
* C56 (`PropLine.v`): an invariant of each step of the tokenizer: its place is the place after the text it has read, unless no text is left.
  It holds for files with errors too.  The statement about runs uses the log of `ProofRun.v`.
* C57-C59 (`PropModes.v`): without links, a run analyses each file on its initial content (`ProofModes.run_plan`), so runs with other
  options or other inputs are compared file by file.  `announces` (`SpecModes.v`) relates the lines of two runs.
* C61 (`PropVerdict.v`): C41-C43 for each literal, C53 for each file (`ProofAgain.v` adds that the new file is ordinary), `run_plan` for the three runs.
* C62 (`PropStuck.v`): `stuck` parts raise whatever the fields; by induction over what is looked at, either one of them is stuck or `validate` answers. The three conditions of `settled_names` each have a witness.
* C63 (`PropFailed.v`): C62 for each literal, `compute_tokens_spec` (what makes a file fail) for each file, `run_plan` for the run; the token list of a file ends with the end marker, so that without validation nothing is checked.
* C64 (`PropTables.v`): over tables the only known field is the star, at every depth, so no name is ever missing; the three outcomes follow by induction (`decides`); conversely every fault is reported, because no string, number, NULL, arithmetic, parenthesis, alias or dotted name has the text of the star (`value_star`).
* C65 (`PropExact.v`): C66 for each literal (`errors_tables`), the reports of a file for its number of faulty queries (`reports_tables`), `run_plan` for the run and its exit status.
* C66 (`PropNamed.v`): over tables with and without aliases every known field is a star, `*` or `a.*`, of type object (`good`, on top of `rep`); the induction of C64 with the scopes of C49 (`named_decides`), and conversely every fault and every unknown name is reported (`seen_good`, `faulty_named`, `unknown_named`), because only the column `a` has the text `a` (`text_name`) and no value has the text `a.*` (`value_dot`).
* C67 (`PropSays.v`): the induction of C66 with a property of every message instead of a bound on their number (`says_decides`), and conversely every deserved message is given (`says_given`); for runs the reports of a file token by token (`report_says`) and `run_plan`.
* C68 (`PropLost.v`): the converse of C49. The induction of `looked_origin` with the scope carried along (`any_source`): the scope of each FROM clause gives its known fields (`provides_ok`), and a message that a name was not found comes from a name that these fields do not have; that it is ambiguous, from two fields with the name, which belong to two aliases (`two_ambiguous`).
* C69 (`PropDerived.v`): `any_source` for every message. A condition whose text is no field has the type of its expression (`resolve_unwritten`), which C67 describes; conversely C49, C60 and `tests_scoped`. With C62 for when it raises.
* C47 (`PropTidy.v`): an automaton reads the printed text and rejects empty lines and trailing blanks; induction over
  nodes and printing modes.  `tidy` is a local condition on each node; statements of the fragment satisfy it.
* C48 (`PropCost.v`): `Cost.v` repeats `Render.v` in a monad that counts the nodes turned into text; that it prints the same text
  is a theorem.  Upper bounds by induction over nodes and modes; the lower bound for a = 1 AND a = 1 AND ..., whose
  parse is an instance of Theorem 1 above.
* C50 (`PropParseCost.v`): `ParseCost.v` repeats `Parser.v` in a monad that counts calls and the tokens parsed again by the
  try/except of FROM.  Each function gets a budget linear in the tokens it is given and pays for those it hands on;
  the bound in the depth is by induction on the depth.  Lower bounds: two families of nested queries, followed step by step.

Beside each theorem an `Example` shows a concrete case that meets its hypotheses.

## 6. Conventions

A theorem called `Cnn_..._refuted` shows, by a witness, that the claim without some hypothesis of the theorems above it is false of
the model, and so (as far as the model is faithful) of the program.  The statement in `properties.jsonl`
says for which inputs the property is claimed and what is false outside.
