"""Write rocq/theories/TokenizeTests.v: what CPython's tokenize gives for short texts of all kinds.

Runs on CPython 3.11 (the tokenizer of 3.12 is another program).  Nothing of the project is executed.
"""
import io
import random
import token as T
import tokenize

NAMES = {T.ENDMARKER: "TEnd", T.STRING: "TString", T.NEWLINE: "TNewline", T.INDENT: "TIndent",
         T.DEDENT: "TDedent", T.COMMENT: "TComment", T.NL: "TNl"}
PIECES = [" ", "  ", "    ", "\t", "\f", "\n", "\n", "\n", "\n    ", "\n  ", "\n        ", "\r\n", "\r", "\\\n",
          "\\\r\n", "\\", "'", '"', "'''", '"""', '"""\n', "f", "rb", "bR", "ur", "u", "x", "xf", "_a1", "\xe9",
          "\u20ac", "0", "00", "012", "1", "1_0", "1__0", "1_", "0x1F", "0xg", "0b12", "0o78", "1e5", "1e", "1e+",
          "1.5", "1.", ".5", "..", "...", "1.5e-3j", "2j", "1e5J", "0_0", "(", ")", "[", "]", "{", "}", "+", "**=",
          "->", "-", ">", ">=", "<<=", "<>", "!=", "!", "$", "?", ":=", ":", "//=", "@", "~", "`", ".", ",", ";",
          "#", "# c\n", "# it's \"x\"\n", "if", "select a", "\\'", '\\"', "\\n", "''", '""', "'a'", '"b"', "f'x'",
          "r'\\'", "pass", "\n\n", "=", "'a\\\nb'", '"""a\nb"""', "'''\\''''"]
FIXED = [
    "", "\n", "x", "x = 1\n", "# c", "# c\n", "  # c\n", "if x:\n    y\nz\n", "if x:\n    y\n  z\n", "f(\n  a,\n  b)\n",
    "x = (", "x = '''a\nb'''\n", "x = '''a\nb", "x = 'a\\\nb' + y\n", "x = 'a\n", "x = a + \\\n    b\n", "x = \\",
    "\tif x:\n\t  y\n        z\n", "x = 0x_1f + 1_000.5e-1_0j\n", "a<<=b<>c\n", "\xe9t\xe9 = \u20ac\n",
    "class A:\n    '''doc'''\n\n    def f(self):\n        return 1\n\n\nx = 2\n", "x = rb'a' Rf\"b\" ur'c'\n",
    "x = 'a''b'\n", "x = ''\n", "x = ''''\n", "x = ''''''\n", "if x:\n    y", "x\r\ny\r\n", "x \f y\n", "\n  \n\t\n",
]


def tokens(s):
    out, end = [], "None"
    try:
        for t in tokenize.generate_tokens(io.StringIO(s, newline="\n").readline):
            out.append(t)
    except tokenize.TokenError:
        end = "(Some TokenError)"
    except IndentationError:
        end = "(Some IndentationError)"
    return out, end


def text(s):
    return "[" + ";".join(str(ord(c)) for c in s) + "]%N" if s else "[]"


def case(s):
    ts, end = tokens(s)
    rows = ["(%s, mk_tok %s %s (%d,%d)%%Z (%d,%d)%%Z)" % (
        "true" if t.type == T.ERRORTOKEN else "false", NAMES.get(t.type, "TOther"), text(t.string), *t.start, *t.end)
        for t in ts]
    return "  (%s, [%s], %s)" % (text(s), "; ".join(rows), end)


def main():
    rnd = random.Random(7)
    texts = FIXED + ["".join(rnd.choice(PIECES) for _ in range(rnd.choice([2, 3, 5, 8, 13]))) for _ in range(170)]
    with open("rocq/theories/TokenizeTests.v", "w") as f:
        f.write("""(** GENERATED by tools/gen_tokenize_tests.py: what CPython 3.11's tokenize gives for %d texts.  Tests of the
    model, not proofs of properties. *)
From Verif Require Import PyStr PyTokens PyTokenize.
Local Open Scope list_scope.

Definition pair_eqb (a b : Z * Z) : bool := ((fst a =? fst b) && (snd a =? snd b))%%Z.
Definition same (a b : ptok) : bool :=
  Bool.eqb (fst a) (fst b) && tktype_eqb (t_type (snd a)) (t_type (snd b)) && str_eqb (t_text (snd a)) (t_text (snd b))
  && pair_eqb (t_start (snd a)) (t_start (snd b)) && pair_eqb (t_end (snd a)) (t_end (snd b)).
Fixpoint all_same (a b : list ptok) : bool :=
  match a, b with [], [] => true | x :: a, y :: b => same x y && all_same a b | _, _ => false end.
Definition same_end (a b : option exn) : bool :=
  match a, b with None, None => true | Some (OtherError x), Some (OtherError y) => str_eqb x y | _, _ => false end.
(** The euro sign is the only character of the texts beyond ASCII that is not part of a word *)
Definition ok (c : str * list ptok * option exn) : bool :=
  let '(s, ts, e) := c in
  let '(us, f) := tokenize (fun c => negb (N.eqb c 8364)) s in all_same us ts && same_end f e.
Definition cases : list (str * list ptok * option exn) := [
%s].
Example test_tokenize : forallb ok cases = true.
Proof. vm_compute. reflexivity. Qed.
""" % (len(texts), ";\n".join(map(case, texts))))


main()
