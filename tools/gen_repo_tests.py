"""Turn the repository's own tests (read as text) into Coq examples about the model.

Usage: python3 gen_repo_tests.py /repo > RepoTests.v
Every test function is read with `ast`; nothing from /repo is executed."""
import ast, sys

repo = sys.argv[1]
out = []
skipped = []


def cstr(s):
    if all(32 <= ord(c) < 127 or c in "\n\t" for c in s):
        return '"' + s.replace('"', '""') + '"'
    return "[" + "; ".join(str(ord(c)) for c in s) + "]%N"


def ev(e, env):
    """Value of the constant expressions used in the tests."""
    if isinstance(e, ast.Constant):
        return e.value
    if isinstance(e, ast.Name):
        return env[e.id]
    if isinstance(e, (ast.List, ast.Tuple)):
        return [ev(x, env) for x in e.elts]
    if isinstance(e, ast.Call) and isinstance(e.func, ast.Attribute):
        base = ev(e.func.value, env)
        args = [ev(x, env) for x in e.args]
        if e.func.attr == "strip" and not args:
            return base.strip()
        if e.func.attr == "format":
            return base.format(*args)
        if e.func.attr == "join":
            return base.join(*args)
    if isinstance(e, ast.BinOp) and isinstance(e.op, ast.Add):
        return ev(e.left, env) + ev(e.right, env)
    if isinstance(e, ast.BinOp) and isinstance(e.op, ast.Mult):
        return ev(e.left, env) * ev(e.right, env)
    raise KeyError(ast.dump(e))


def functions(path):
    tree = ast.parse(open(path).read())
    return [n for n in tree.body if isinstance(n, ast.FunctionDef) and n.name.startswith("test")]


def is_call(e, name):
    return isinstance(e, ast.Call) and isinstance(e.func, ast.Name) and e.func.id == name


def emit(section, name, line, prop):
    out.append("(* %s:%d *)\nExample %s : %s.\nProof. vm_compute. reflexivity. Qed." % (section, line, name, prop))


def example(section, fn, k):
    return "%s_%s%s" % (section, fn, "" if k == 0 else "_%d" % k)


# --- formatting -----------------------------------------------------------------------------
path = "tests/integration/test_formatting.py"
for f in functions(repo + "/" + path):
    env, k = {}, 0
    for st in f.body:
        try:
            if isinstance(st, ast.Assign):
                env[st.targets[0].id] = ev(st.value, env)
            elif isinstance(st, ast.Assert):
                t = st.test
                sql, exp = ev(t.left.args[0], env), ev(t.comparators[0], env)
                assert is_call(t.left, "format_sql")
                emit(path, example("fmt", f.name, k), st.lineno, "format_sql %s = Ok %s" % (cstr(sql), cstr(exp)))
                k += 1
            else:
                raise KeyError("stmt")
        except KeyError as x:
            skipped.append((path, f.name, str(x)[:80]))
            break

# --- validation -----------------------------------------------------------------------------
path = "tests/integration/test_validation.py"
for f in functions(repo + "/" + path):
    env, k = {}, 0
    for st in f.body:
        try:
            if isinstance(st, ast.Assign):
                env[st.targets[0].id] = ev(st.value, env)
            elif isinstance(st, ast.Expr) and is_call(st.value, "assert_valid_sql"):
                sql = ev(st.value.args[0], env)
                emit(path, example("val", f.name, k), st.lineno, "is_valid %s = (Ok true, [])" % cstr(sql))
                k += 1
            elif isinstance(st, ast.Expr) and is_call(st.value, "assert_invalid_sql"):
                args = [ev(a, env) for a in st.value.args]
                args += [ev(a.value, env) for a in st.value.keywords]
                if len(args) > 1 and args[1]:
                    errs = "[" + "; ".join(cstr(x) for x in args[1]) + "]"
                    emit(path, example("val", f.name, k), st.lineno, "is_valid %s = (Ok false, %s)" % (cstr(args[0]), errs))
                else:
                    emit(path, example("val", f.name, k), st.lineno, "fst (is_valid %s) = Ok false" % cstr(args[0]))
                k += 1
            else:
                raise KeyError("stmt")
        except KeyError as x:
            skipped.append((path, f.name, str(x)[:80]))
            break

# --- tokeniser ------------------------------------------------------------------------------
def clist(l):
    return "[" + "; ".join(cstr(x) for x in l) + "]"


path = "tests/unit/test_tokeniser.py"
for f in functions(repo + "/" + path):
    env, k = {}, 0
    pending = None
    for st in f.body:
        try:
            if isinstance(st, ast.Assign) and isinstance(st.targets[0], ast.Name):
                try:
                    env[st.targets[0].id] = ev(st.value, env)
                except KeyError:
                    pending = (st.targets[0].id, st.value)
            elif isinstance(st, ast.Assign) and isinstance(st.targets[0], ast.Tuple):
                pending = ([x.id for x in st.targets[0].elts], st.value)
            elif isinstance(st, ast.Assert):
                left, exp = st.test.left, ev(st.test.comparators[0], env)
                if is_call(left, "list"):
                    left = left.args[0]
                if is_call(left, "to_tokens"):
                    emit(path, example("tok", f.name, k), st.lineno,
                         "to_tokens %s = (%s, None)" % (cstr(ev(left.args[0], env)), clist(exp)))
                elif is_call(left, "split_with_sep"):
                    s, sep = [ev(a, env) for a in left.args]
                    emit(path, example("tok", f.name, k), st.lineno,
                         "split_with_sep %s %d = %s" % (cstr(s), ord(sep), clist(exp)))
                elif pending and is_call(pending[1], "get_tokens_until_one_of") or pending and is_call(pending[1], "get_tokens_until_not_in"):
                    raise KeyError("until " + ast.unparse(pending[1]))
                else:
                    raise KeyError(ast.unparse(st))
                k += 1
            else:
                raise KeyError(ast.unparse(st))
        except KeyError as x:
            skipped.append((path, f.name, str(x)[:160]))
            break

# --- parser ---------------------------------------------------------------------------------
def node(e):
    """Coq term for an expected tree built with the constructors of grammar/sql.py."""
    if isinstance(e, ast.Constant) and e.value is None:
        return None
    name = e.func.id
    a = e.args
    kw = {k.arg: k.value for k in e.keywords}

    def arg(i, key, default=None):
        if i is not None and i < len(a):
            return a[i]
        return kw.get(key, default)

    def val(x, d=None):
        return d if x is None else ev(x, {})

    def b(x):
        return "true" if val(x, False) else "false"

    def nl(xs):
        xs = [y for x in xs for y in (x.value.elts if isinstance(x, ast.Starred) else [x])]
        return "[" + "; ".join(node(x) for x in xs) + "]"

    def opt(s):
        return "None" if s is None else "(Some %s)" % s

    def on(x):
        return opt(None if x is None or (isinstance(x, ast.Constant) and x.value is None) else node(x))

    def inner(x):  # the value wrapped by WhereClause, OnClause ...
        if x is None or (isinstance(x, ast.Constant) and x.value is None):
            return "None"
        return "(Some %s)" % node((x.args + [k.value for k in x.keywords])[0])

    def order(x):
        if x is None or (isinstance(x, ast.Constant) and x.value is None):
            return "None"
        return "(Some %s)" % nl(x.args)

    if name == "SelectStatement":
        sem = arg(None, "semi_colon")
        don = kw.get("select_distinct_on")
        g = kw.get("group_by_clause")
        if g is None or (isinstance(g, ast.Constant) and g.value is None):
            gs = "None"
        else:
            gk = {k.arg: k.value for k in g.keywords}
            gs = "(Some (%s, %s, false))" % (nl(g.args), b(gk.get("rollup")))
        l = kw.get("limit_clause")
        if l is None or (isinstance(l, ast.Constant) and l.value is None):
            ls = "None"
        else:
            lk = {k.arg: k.value for k in l.keywords}
            la = l.args[0] if l.args else lk["limit_all"]
            le = l.args[1] if len(l.args) > 1 else lk["expression"]
            ls = "(Some (%s, %s))" % (b(la), on(le))
        return "(NSelect %s %s %s %s %s %s %s %s %s %s %s %s)" % (
            nl(kw["expressions"].elts), b(kw.get("select_all")), b(kw.get("select_distinct")),
            "None" if don is None or isinstance(don, ast.Constant) else "(Some %s)" % nl(don.elts),
            on(kw.get("from_statement")), inner(kw.get("where_clause")), gs,
            inner(kw.get("having_clause")), order(kw.get("order_by_clause")), ls,
            inner(kw.get("offset_clause")), "true" if sem is None or sem.value else "false")
    if name == "FunctionCall":
        return "(NFun %s %s)" % (cstr(val(a[0])), nl(a[1:]))
    if name == "CastFunctionCall":
        return "(NCast %s %s)" % (node(a[0]), cstr(ev(a[1].args[0], {})))
    if name == "CountFunctionCall":
        return "(NCount %s %s)" % (nl(a), b(kw.get("distinct")))
    if name == "Column":
        return "(NColumn %s)" % cstr(val(a[0]))
    if name == "Type":
        return "(NType %s)" % cstr(val(a[0]))
    if name == "ChainedColumns":
        t = node(a[0])
        for x in a[1:]:
            t = "(NChained %s %s)" % (t, node(x))
        return t
    if name == "String":
        p = arg(2, "prefix")
        return "(NString %s %s %s)" % (cstr(val(a[0])), cstr(val(arg(1, "quotes"))),
                                       opt(None if p is None else cstr(val(p))))
    if name == "Integer":
        return "(NInt (%d))" % int(ast.literal_eval(a[0]))
    if name == "Null":
        return "NNull"
    if name == "Parenthesis":
        return "(NParen %s)" % nl(a)
    if name == "Array":
        return "(NArray %s)" % nl(a)
    if name == "Alias":
        al = arg(1, "alias")
        als = "(inl %s)" % cstr(al.value) if isinstance(al, ast.Constant) else "(inr %s)" % node(al)
        return "(NAlias %s %s %s)" % (node(arg(0, "expression")), als, b(arg(2, "with_as")))
    if name == "Index":
        return "(NIndex %s %s)" % (node(a[0]), nl(a[1].elts))
    if name == "ArithmaticOperator":
        return "(NArith %s %s %s)" % (cstr(val(a[0])), node(a[1]), node(a[2]))
    if name == "Addition":
        return '(NArith "+" %s %s)' % (node(a[0]), node(a[1]))
    if name == "Table":
        return "(NTable %s %s)" % (node(a[0]), b(arg(1, "in_square_brackets")))
    if name == "Unnest":
        oa = kw.get("offset_alias")
        return "(NUnnest %s %s %s %s)" % (node(a[0]), b(kw.get("with_offset")), b(kw.get("with_offset_as")),
                                          opt(None if oa is None or oa.value is None else cstr(oa.value)))
    if name == "Join":
        return "(NJoin %s %s %s %s %s)" % (cstr(val(arg(0, "join_type"))), node(arg(1, "left_from")),
                                           node(arg(2, "right_from")), inner(arg(3, "on")), inner(arg(4, "using")))
    if name == "Condition":
        return "(NCond %s %s %s)" % (node(a[0]), cstr(val(a[1])), node(a[2]))
    if name == "BooleanCondition":
        return "(NBoolC %s %s %s)" % (cstr(val(a[0])), node(a[1]), node(a[2]))
    if name == "OrderByItem":
        return "(NOrderItem %s %s %s)" % (node(a[0]), b(kw.get("has_asc")), b(kw.get("has_desc")))
    if name == "AnalyticsClause":
        p = arg(1, "partition_by")
        fr = arg(3, "frame_clause")
        frs = "None"
        if isinstance(fr, ast.Call):
            frs = "(Some (%s, %s))" % (cstr(val(fr.args[0])), cstr(val(fr.args[1])))
        return "(NAnalytics %s %s %s %s)" % (
            node(arg(0, "function")), "(Some %s)" % nl(p.elts) if isinstance(p, ast.List) else "None",
            order(arg(2, "order_by")), frs)
    if name == "ExceptClause":
        return "(NExcept %s %s)" % (node(a[0]), nl(a[1].elts))
    if name in ("WhereClause", "OnClause", "UsingClause"):
        return node(a[0])
    raise KeyError(name)


path = "tests/unit/test_lexer.py"
for f in functions(repo + "/" + path):
    env = {}
    actual = expected = None
    try:
        for st in f.body:
            if isinstance(st, ast.Assign):
                t = st.targets[0]
                name = t.elts[0].id if isinstance(t, ast.Tuple) else t.id
                if name == "actual":
                    actual = st.value
                elif name == "expected":
                    expected = st.value
                else:
                    env[name] = ev(st.value, env)
            elif isinstance(st, ast.Assert) and ast.unparse(st) == "assert actual == expected":
                sub = 0
                if isinstance(actual, ast.Subscript):
                    actual = actual.value
                parser = actual.func.value.id
                extra = {k.arg: k.value for k in actual.keywords}
                sql = ev(actual.args[0].args[0], env)
                exp = node(expected)
                if parser == "SQLStatementParser":
                    lhs, eqb = "parse_sql %s" % cstr(sql), "eq_stmt"
                elif parser == "FromStatementParser":
                    lhs, eqb = "parse_from %s" % cstr(sql), "eq_stmt"
                elif parser == "WhereClauseParser":
                    lhs, eqb = "parse_where %s" % cstr(sql), "eq_stmt"
                elif parser == "ExpressionParser":
                    cbt = "true" if "can_be_type" in extra else "false"
                    lhs, eqb = "parse_expr %s %s" % (cbt, cstr(sql)), "eq_stmt"
                    if extra and set(extra) != {"can_be_type"}:
                        raise KeyError(str(extra))
                emit(path, "lex_" + f.name, st.lineno, "%s = Ok %s" % (lhs, exp))
            else:
                raise KeyError(ast.unparse(st))
    except KeyError as x:
        skipped.append((path, f.name, str(x)[:160]))

# the two loops of the tokeniser with explicit arguments
print("""(** GENERATED by tools/gen_repo_tests.py from the assertions in /repo/tests (read as text).
    These are tests of the model, not proofs of properties. *)
From Verif Require Import PyStr Tokeniser Ast Parser Render Validate Api.
Local Open Scope str_scope.
Local Open Scope list_scope.

Definition is_valid (sql : str) : R bool * list str :=
  let '(r, q) := q_is_valid (fun x => x) (new_query sql) in (r, q_errors q).
Definition parse_expr (can_be_type : bool) (sql : str) : R node :=
  let '(ts, eos) := to_tokens sql in
  '(e, _, _) <- p_expr (parsers (parse_fuel ts)) eos
                  (mk_eopts false can_be_type true [] None false) ts ;; Ok e.
Definition parse_where (sql : str) : R node :=
  let '(ts, eos) := to_tokens sql in
  '(e, _, _) <- p_expr (parsers (parse_fuel ts)) eos
     (mk_eopts false false false ["group"; "having"; "order"; "limit"; "offset"; ";"] None false)
     ts ;; Ok e.
Definition parse_from (sql : str) : R node :=
  let '(ts, eos) := to_tokens sql in p_from (parsers (parse_fuel ts)) ts.
""")
print("\n\n".join(out))
print(r"""
(* the remaining tests, which do not have the shapes above, transcribed by hand:
   tests/unit/test_tokeniser.py:123-177, tests/unit/test_lexer.py:305-320, tests/unit/test_sql.py *)
Example tok_keep_tokens_in :
  until_not_in None ["foo"; "bar"] None ["foo"; "bar"; "baz"] = Ok (["foo"; "bar"], Some "baz", []).
Proof. reflexivity. Qed.
Example tok_keep_tokens_in_parenthesis :
  until_not_in None ["foo"; "bar"] None ["foo"; "("; "no"; ")"; "bar"; "baz"]
  = Ok (["foo"], Some "(", ["no"; ")"; "bar"; "baz"]).
Proof. reflexivity. Qed.
Example tok_until :
  until_one_of None ["bar"] None [] ["foo"; "bar"; "baz"] = Ok (["foo"], Some "bar", ["baz"]).
Proof. reflexivity. Qed.
Example tok_until_empty :
  until_one_of None [] None [] ["foo"; "bar"; "baz"] = Ok (["foo"; "bar"; "baz"], None, []).
Proof. reflexivity. Qed.
Example tok_until_with_first :
  until_one_of None ["bar"] (Some "fib") [] ["foo"; "bar"; "baz"]
  = Ok (["fib"; "foo"], Some "bar", ["baz"]).
Proof. reflexivity. Qed.
Example tok_until_with_keep :
  until_one_of None ["offset"] None [("with", "offset")] ["foo"; "with"; "offset"; "offset"]
  = Ok (["foo"; "with"; "offset"], Some "offset", []).
Proof. reflexivity. Qed.
Example tok_until_with_keep_capitalised :
  until_one_of None ["offset"] None [("with", "offset")] ["foo"; "WITH"; "offset"; "offset"]
  = Ok (["foo"; "WITH"; "offset"], Some "offset", []).
Proof. reflexivity. Qed.
Example tok_empty_list_until : until_one_of None ["]"] None [] ["]"] = Ok ([], Some "]", []).
Proof. reflexivity. Qed.
Definition parse_where_rest (sql : str) :=
  let '(ts, eos) := to_tokens sql in
  p_expr (parsers (parse_fuel ts)) eos
     (mk_eopts false false false ["group"; "having"; "order"; "limit"; "offset"; ";"] None false) ts.
Example lex_where_keeps_generator :
  parse_where_rest "col = 3 group by col"
  = Ok (NCond (NColumn "col") "=" (NInt 3), Some "group", ["by"; "col"]).
Proof. vm_compute. reflexivity. Qed.
Example lex_where_keeps_generator_null :
  parse_where_rest "col is null group by col"
  = Ok (NCond (NColumn "col") "is" NNull, Some "group", ["by"; "col"]).
Proof. vm_compute. reflexivity. Qed.
Example sql_boolean_condition :
  transform (NBoolC "and" (NCond (NColumn "col") "=" (NInt 1)) (NCond (NColumn "col2") "=" (NInt 4)))
  = Ok "col = 1 AND col2 = 4".
Proof. reflexivity. Qed.
Example sql_cast_function_call : transform (NCast (NColumn "date") "date") = Ok "CAST(date AS DATE)".
Proof. reflexivity. Qed.""")
for s in skipped:
    print("SKIPPED", s, file=sys.stderr)
print(len(out), "examples", len(skipped), "skipped", file=sys.stderr)
