"""Turn tests/integration/test_file_handler.py (read as text) into Coq examples about the model,
and compare the modelled untokenize with the standard library's on a few sources.

Usage: python3 gen_file_tests.py /repo > FileTests.v
Only the standard library's tokenize is run; nothing from /repo is executed.  Needs Python < 3.12
(later versions split f-strings into several tokens)."""
import ast, io, sys, tokenize

repo = sys.argv[1]
KIND = {tokenize.ENDMARKER: "TEnd", tokenize.STRING: "TString", tokenize.NEWLINE: "TNewline",
        tokenize.INDENT: "TIndent", tokenize.DEDENT: "TDedent", tokenize.COMMENT: "TComment",
        tokenize.NL: "TNl"}


def cstr(s):
    if all(32 <= ord(c) < 127 or c in "\n\t" for c in s):
        return '"' + s.replace('"', '""') + '"'
    return "[" + "; ".join(str(ord(c)) for c in s) + "]%N"


def tokens(src):
    return list(tokenize.generate_tokens(io.StringIO(src).readline))


def ctoks(src):
    return "[" + ";\n    ".join(
        "mk_tok %s %s (%d, %d)%%Z (%d, %d)%%Z" % ((KIND.get(t.type, "TOther"), cstr(t.string)) + t.start + t.end)
        for t in tokens(src)) + "]"


print("""(** GENERATED by tools/gen_file_tests.py: the assertions of
    /repo/tests/integration/test_file_handler.py (read as text) on the token lists that
    CPython's tokenize gives for the file contents, and comparisons of the modelled untokenize
    with CPython's.  Tests of the model, not proofs of properties. *)
From Verif Require Import PyStr Tokeniser Ast Parser Render Validate Api PyTokens FileHandler.
Local Open Scope str_scope.
Local Open Scope list_scope.

Definition compute (ts : list pytok) : R (nat * str) :=
  r <- compute_file_content (fun x => x) true false ts None ;; Ok (r_changed r, r_content r).
""")
path = "tests/integration/test_file_handler.py"
tree = ast.parse(open(repo + "/" + path).read())
for f in tree.body:
    if not (isinstance(f, ast.FunctionDef) and f.name.startswith("test")):
        continue
    env, num, same = {}, None, None
    for st in f.body:
        if isinstance(st, ast.Assign) and isinstance(st.targets[0], ast.Name):
            try:
                env[st.targets[0].id] = ast.literal_eval(st.value)
            except ValueError:
                pass
        if isinstance(st, ast.Assert):
            l, r = st.test.left, st.test.comparators[0]
            if l.id == "num_changed_sql":
                num = r.value
            else:
                same = env[r.id]
    if same is None:
        continue
    if num is None:
        prop = "r <- compute %s ;; Ok (snd r)) = Ok %s" % (ctoks(env["file_content"]), cstr(same))
        prop = "(" + prop
    else:
        prop = "compute %s\n  = Ok (%d%%nat, %s)" % (ctoks(env["file_content"]), num, cstr(same))
    print("(* %s:%d *)\nExample %s :\n  %s.\nProof. vm_compute. reflexivity. Qed.\n" % (path, f.lineno, f.name, prop))

SOURCES = [
    "x = 1\n",
    "def f(a,\n      b):\n    if a:\n        return 'x'  # c\n\n    else:\n        pass\nx = 2\n",
    "x = 1 + \\\n    2\ny = '''a\n  b'''\n",
    "if x:\n\ty = 1\n\tif y:\n\t\tz = (1,\n2)\n\n# end\n",
    "class A:\n    '''doc\n    string'''\n\n    # comment\n    def g(self): return f\"{x}\"\n",
    "x = [\n    1,\n\n    2,  # two\n]\n",
]
for i, s in enumerate(SOURCES):
    res = tokenize.untokenize(tokens(s))
    print("Example untokenize_%d :\n  untokenize %s\n  = Ok %s.\nProof. vm_compute. reflexivity. Qed.\n" % (i, ctoks(s), cstr(res)))
