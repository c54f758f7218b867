(** GENERATED by tools/gen_file_tests.py: the assertions of
    /repo/tests/integration/test_file_handler.py (read as text) on the token lists that
    CPython's tokenize gives for the file contents, and comparisons of the modelled untokenize
    with CPython's.  Tests of the model, not proofs of properties. *)
From Verif Require Import PyStr Tokeniser Ast Parser Render Validate Api PyTokens FileHandler.
Local Open Scope str_scope.
Local Open Scope list_scope.

Definition compute (ts : list pytok) : R (nat * str) :=
  r <- compute_file_content (fun x => x) true false ts None ;; Ok (r_changed r, r_content r).

(* tests/integration/test_file_handler.py:7 *)
Example test_format_file :
  compute [mk_tok TString "'''select id from table_stmt;'''" (1, 0)%Z (1, 32)%Z;
    mk_tok TNewline "" (1, 32)%Z (1, 33)%Z;
    mk_tok TEnd "" (2, 0)%Z (2, 0)%Z]
  = Ok (1%nat, "'''
SELECT id
FROM table_stmt;
'''").
Proof. vm_compute. reflexivity. Qed.

(* tests/integration/test_file_handler.py:18 *)
Example test_format_file_multilines :
  (r <- compute [mk_tok TString "'select id from table_stmt'" (1, 0)%Z (1, 27)%Z;
    mk_tok TNewline "" (1, 27)%Z (1, 28)%Z;
    mk_tok TEnd "" (2, 0)%Z (2, 0)%Z] ;; Ok (snd r)) = Ok "'''
SELECT id
FROM table_stmt
'''".
Proof. vm_compute. reflexivity. Qed.

(* tests/integration/test_file_handler.py:26 *)
Example test_format_file_multiline_sql :
  compute [mk_tok TString "'''
select
   id  
   from table_stmt
;
'''" (1, 0)%Z (6, 3)%Z;
    mk_tok TNewline "" (6, 3)%Z (6, 4)%Z;
    mk_tok TEnd "" (7, 0)%Z (7, 0)%Z]
  = Ok (1%nat, "'''
SELECT id
FROM table_stmt;
'''").
Proof. vm_compute. reflexivity. Qed.

(* tests/integration/test_file_handler.py:37 *)
Example test_format_file_multiline_sql_with_prefix :
  compute [mk_tok TString "r'''
select
   id  
   from table_stmt
;
'''" (1, 0)%Z (6, 3)%Z;
    mk_tok TNewline "" (6, 3)%Z (6, 4)%Z;
    mk_tok TEnd "" (7, 0)%Z (7, 0)%Z]
  = Ok (1%nat, "r'''
SELECT id
FROM table_stmt;
'''").
Proof. vm_compute. reflexivity. Qed.

(* tests/integration/test_file_handler.py:48 *)
Example test_format_sql_string_with_strformat_call :
  compute [mk_tok TString "'select id from {}'" (1, 0)%Z (1, 19)%Z;
    mk_tok TOther "." (1, 19)%Z (1, 20)%Z;
    mk_tok TOther "format" (1, 20)%Z (1, 26)%Z;
    mk_tok TOther "(" (1, 26)%Z (1, 27)%Z;
    mk_tok TOther "__file__" (1, 27)%Z (1, 35)%Z;
    mk_tok TOther ")" (1, 35)%Z (1, 36)%Z;
    mk_tok TNewline "" (1, 36)%Z (1, 37)%Z;
    mk_tok TEnd "" (2, 0)%Z (2, 0)%Z]
  = Ok (1%nat, "'''
SELECT id
FROM {}
'''.format(__file__)").
Proof. vm_compute. reflexivity. Qed.

(* tests/integration/test_file_handler.py:59 *)
Example test_no_format_file :
  compute [mk_tok TString "'select id from t'" (1, 0)%Z (1, 18)%Z;
    mk_tok TComment "# nosqlformat" (1, 20)%Z (1, 33)%Z;
    mk_tok TNewline "" (1, 33)%Z (1, 34)%Z;
    mk_tok TEnd "" (2, 0)%Z (2, 0)%Z]
  = Ok (0%nat, "'select id from t'  # nosqlformat").
Proof. vm_compute. reflexivity. Qed.

(* tests/integration/test_file_handler.py:69 *)
Example test_no_format_sql_string_with_strformat_call :
  compute [mk_tok TString "'select id from {}'" (1, 0)%Z (1, 19)%Z;
    mk_tok TOther "." (1, 19)%Z (1, 20)%Z;
    mk_tok TOther "format" (1, 20)%Z (1, 26)%Z;
    mk_tok TOther "(" (1, 26)%Z (1, 27)%Z;
    mk_tok TOther "__file__" (1, 27)%Z (1, 35)%Z;
    mk_tok TOther ")" (1, 35)%Z (1, 36)%Z;
    mk_tok TComment "# nosqlformat" (1, 38)%Z (1, 51)%Z;
    mk_tok TNewline "" (1, 51)%Z (1, 52)%Z;
    mk_tok TEnd "" (2, 0)%Z (2, 0)%Z]
  = Ok (0%nat, "'select id from {}'.format(__file__)  # nosqlformat").
Proof. vm_compute. reflexivity. Qed.

(* tests/integration/test_file_handler.py:79 *)
Example test_two_following_statements :
  compute [mk_tok TOther "sql" (1, 0)%Z (1, 3)%Z;
    mk_tok TOther "=" (1, 4)%Z (1, 5)%Z;
    mk_tok TOther "(" (1, 6)%Z (1, 7)%Z;
    mk_tok TString "'select * from t;'" (1, 7)%Z (1, 25)%Z;
    mk_tok TOther "," (1, 25)%Z (1, 26)%Z;
    mk_tok TString "'select count(*) from t;'" (1, 27)%Z (1, 52)%Z;
    mk_tok TOther ")" (1, 52)%Z (1, 53)%Z;
    mk_tok TNewline "" (1, 53)%Z (1, 54)%Z;
    mk_tok TEnd "" (2, 0)%Z (2, 0)%Z]
  = Ok (2%nat, "sql = ('''
SELECT *
FROM t;
''', '''
SELECT COUNT(*)
FROM t;
''')").
Proof. vm_compute. reflexivity. Qed.

(* tests/integration/test_file_handler.py:92 *)
Example test_two_following_statements_second_noformat :
  compute [mk_tok TOther "sql" (1, 0)%Z (1, 3)%Z;
    mk_tok TOther "=" (1, 4)%Z (1, 5)%Z;
    mk_tok TOther "(" (1, 6)%Z (1, 7)%Z;
    mk_tok TNl "
" (1, 7)%Z (1, 8)%Z;
    mk_tok TString "'select * from t;'" (2, 0)%Z (2, 18)%Z;
    mk_tok TOther "," (2, 18)%Z (2, 19)%Z;
    mk_tok TString "'select count(*) from t;'" (2, 20)%Z (2, 45)%Z;
    mk_tok TComment "# nosqlformat" (2, 47)%Z (2, 60)%Z;
    mk_tok TNl "
" (2, 60)%Z (2, 61)%Z;
    mk_tok TOther ")" (3, 0)%Z (3, 1)%Z;
    mk_tok TNewline "" (3, 1)%Z (3, 2)%Z;
    mk_tok TEnd "" (4, 0)%Z (4, 0)%Z]
  = Ok (1%nat, "sql = (
'''
SELECT *
FROM t;
''', 'select count(*) from t;'  # nosqlformat
)").
Proof. vm_compute. reflexivity. Qed.

(* tests/integration/test_file_handler.py:105 *)
Example test_two_following_statements_both_no_format :
  compute [mk_tok TOther "sql" (1, 0)%Z (1, 3)%Z;
    mk_tok TOther "=" (1, 4)%Z (1, 5)%Z;
    mk_tok TOther "(" (1, 6)%Z (1, 7)%Z;
    mk_tok TNl "
" (1, 7)%Z (1, 8)%Z;
    mk_tok TString "'select * from t;'" (2, 0)%Z (2, 18)%Z;
    mk_tok TComment "# nosqlformat" (2, 20)%Z (2, 33)%Z;
    mk_tok TNl "
" (2, 33)%Z (2, 34)%Z;
    mk_tok TOther "," (3, 0)%Z (3, 1)%Z;
    mk_tok TString "'select count(*) from t;'" (3, 2)%Z (3, 27)%Z;
    mk_tok TComment "# nosqlformat" (3, 29)%Z (3, 42)%Z;
    mk_tok TNl "
" (3, 42)%Z (3, 43)%Z;
    mk_tok TOther ")" (4, 0)%Z (4, 1)%Z;
    mk_tok TNewline "" (4, 1)%Z (4, 2)%Z;
    mk_tok TEnd "" (5, 0)%Z (5, 0)%Z]
  = Ok (0%nat, "sql = (
'select * from t;'  # nosqlformat
, 'select count(*) from t;'  # nosqlformat
)").
Proof. vm_compute. reflexivity. Qed.

(* tests/integration/test_file_handler.py:115 *)
Example test_string_starting_with_selected :
  compute [mk_tok TString "'selected string'" (1, 0)%Z (1, 17)%Z;
    mk_tok TNewline "" (1, 17)%Z (1, 18)%Z;
    mk_tok TEnd "" (2, 0)%Z (2, 0)%Z]
  = Ok (0%nat, "'selected string'").
Proof. vm_compute. reflexivity. Qed.

Example untokenize_0 :
  untokenize [mk_tok TOther "x" (1, 0)%Z (1, 1)%Z;
    mk_tok TOther "=" (1, 2)%Z (1, 3)%Z;
    mk_tok TOther "1" (1, 4)%Z (1, 5)%Z;
    mk_tok TNewline "
" (1, 5)%Z (1, 6)%Z;
    mk_tok TEnd "" (2, 0)%Z (2, 0)%Z]
  = Ok "x = 1
".
Proof. vm_compute. reflexivity. Qed.

Example untokenize_1 :
  untokenize [mk_tok TOther "def" (1, 0)%Z (1, 3)%Z;
    mk_tok TOther "f" (1, 4)%Z (1, 5)%Z;
    mk_tok TOther "(" (1, 5)%Z (1, 6)%Z;
    mk_tok TOther "a" (1, 6)%Z (1, 7)%Z;
    mk_tok TOther "," (1, 7)%Z (1, 8)%Z;
    mk_tok TNl "
" (1, 8)%Z (1, 9)%Z;
    mk_tok TOther "b" (2, 6)%Z (2, 7)%Z;
    mk_tok TOther ")" (2, 7)%Z (2, 8)%Z;
    mk_tok TOther ":" (2, 8)%Z (2, 9)%Z;
    mk_tok TNewline "
" (2, 9)%Z (2, 10)%Z;
    mk_tok TIndent "    " (3, 0)%Z (3, 4)%Z;
    mk_tok TOther "if" (3, 4)%Z (3, 6)%Z;
    mk_tok TOther "a" (3, 7)%Z (3, 8)%Z;
    mk_tok TOther ":" (3, 8)%Z (3, 9)%Z;
    mk_tok TNewline "
" (3, 9)%Z (3, 10)%Z;
    mk_tok TIndent "        " (4, 0)%Z (4, 8)%Z;
    mk_tok TOther "return" (4, 8)%Z (4, 14)%Z;
    mk_tok TString "'x'" (4, 15)%Z (4, 18)%Z;
    mk_tok TComment "# c" (4, 20)%Z (4, 23)%Z;
    mk_tok TNewline "
" (4, 23)%Z (4, 24)%Z;
    mk_tok TNl "
" (5, 0)%Z (5, 1)%Z;
    mk_tok TDedent "" (6, 4)%Z (6, 4)%Z;
    mk_tok TOther "else" (6, 4)%Z (6, 8)%Z;
    mk_tok TOther ":" (6, 8)%Z (6, 9)%Z;
    mk_tok TNewline "
" (6, 9)%Z (6, 10)%Z;
    mk_tok TIndent "        " (7, 0)%Z (7, 8)%Z;
    mk_tok TOther "pass" (7, 8)%Z (7, 12)%Z;
    mk_tok TNewline "
" (7, 12)%Z (7, 13)%Z;
    mk_tok TDedent "" (8, 0)%Z (8, 0)%Z;
    mk_tok TDedent "" (8, 0)%Z (8, 0)%Z;
    mk_tok TOther "x" (8, 0)%Z (8, 1)%Z;
    mk_tok TOther "=" (8, 2)%Z (8, 3)%Z;
    mk_tok TOther "2" (8, 4)%Z (8, 5)%Z;
    mk_tok TNewline "
" (8, 5)%Z (8, 6)%Z;
    mk_tok TEnd "" (9, 0)%Z (9, 0)%Z]
  = Ok "def f(a,
      b):
    if a:
        return 'x'  # c

    else:
        pass
x = 2
".
Proof. vm_compute. reflexivity. Qed.

Example untokenize_2 :
  untokenize [mk_tok TOther "x" (1, 0)%Z (1, 1)%Z;
    mk_tok TOther "=" (1, 2)%Z (1, 3)%Z;
    mk_tok TOther "1" (1, 4)%Z (1, 5)%Z;
    mk_tok TOther "+" (1, 6)%Z (1, 7)%Z;
    mk_tok TOther "2" (2, 4)%Z (2, 5)%Z;
    mk_tok TNewline "
" (2, 5)%Z (2, 6)%Z;
    mk_tok TOther "y" (3, 0)%Z (3, 1)%Z;
    mk_tok TOther "=" (3, 2)%Z (3, 3)%Z;
    mk_tok TString "'''a
  b'''" (3, 4)%Z (4, 6)%Z;
    mk_tok TNewline "
" (4, 6)%Z (4, 7)%Z;
    mk_tok TEnd "" (5, 0)%Z (5, 0)%Z]
  = Ok "x = 1 +\
    2
y = '''a
  b'''
".
Proof. vm_compute. reflexivity. Qed.

Example untokenize_3 :
  untokenize [mk_tok TOther "if" (1, 0)%Z (1, 2)%Z;
    mk_tok TOther "x" (1, 3)%Z (1, 4)%Z;
    mk_tok TOther ":" (1, 4)%Z (1, 5)%Z;
    mk_tok TNewline "
" (1, 5)%Z (1, 6)%Z;
    mk_tok TIndent "	" (2, 0)%Z (2, 1)%Z;
    mk_tok TOther "y" (2, 1)%Z (2, 2)%Z;
    mk_tok TOther "=" (2, 3)%Z (2, 4)%Z;
    mk_tok TOther "1" (2, 5)%Z (2, 6)%Z;
    mk_tok TNewline "
" (2, 6)%Z (2, 7)%Z;
    mk_tok TOther "if" (3, 1)%Z (3, 3)%Z;
    mk_tok TOther "y" (3, 4)%Z (3, 5)%Z;
    mk_tok TOther ":" (3, 5)%Z (3, 6)%Z;
    mk_tok TNewline "
" (3, 6)%Z (3, 7)%Z;
    mk_tok TIndent "		" (4, 0)%Z (4, 2)%Z;
    mk_tok TOther "z" (4, 2)%Z (4, 3)%Z;
    mk_tok TOther "=" (4, 4)%Z (4, 5)%Z;
    mk_tok TOther "(" (4, 6)%Z (4, 7)%Z;
    mk_tok TOther "1" (4, 7)%Z (4, 8)%Z;
    mk_tok TOther "," (4, 8)%Z (4, 9)%Z;
    mk_tok TNl "
" (4, 9)%Z (4, 10)%Z;
    mk_tok TOther "2" (5, 0)%Z (5, 1)%Z;
    mk_tok TOther ")" (5, 1)%Z (5, 2)%Z;
    mk_tok TNewline "
" (5, 2)%Z (5, 3)%Z;
    mk_tok TNl "
" (6, 0)%Z (6, 1)%Z;
    mk_tok TComment "# end" (7, 0)%Z (7, 5)%Z;
    mk_tok TNl "
" (7, 5)%Z (7, 6)%Z;
    mk_tok TDedent "" (8, 0)%Z (8, 0)%Z;
    mk_tok TDedent "" (8, 0)%Z (8, 0)%Z;
    mk_tok TEnd "" (8, 0)%Z (8, 0)%Z]
  = Ok "if x:
	y = 1
	if y:
		z = (1,
2)

# end
".
Proof. vm_compute. reflexivity. Qed.

Example untokenize_4 :
  untokenize [mk_tok TOther "class" (1, 0)%Z (1, 5)%Z;
    mk_tok TOther "A" (1, 6)%Z (1, 7)%Z;
    mk_tok TOther ":" (1, 7)%Z (1, 8)%Z;
    mk_tok TNewline "
" (1, 8)%Z (1, 9)%Z;
    mk_tok TIndent "    " (2, 0)%Z (2, 4)%Z;
    mk_tok TString "'''doc
    string'''" (2, 4)%Z (3, 13)%Z;
    mk_tok TNewline "
" (3, 13)%Z (3, 14)%Z;
    mk_tok TNl "
" (4, 0)%Z (4, 1)%Z;
    mk_tok TComment "# comment" (5, 4)%Z (5, 13)%Z;
    mk_tok TNl "
" (5, 13)%Z (5, 14)%Z;
    mk_tok TOther "def" (6, 4)%Z (6, 7)%Z;
    mk_tok TOther "g" (6, 8)%Z (6, 9)%Z;
    mk_tok TOther "(" (6, 9)%Z (6, 10)%Z;
    mk_tok TOther "self" (6, 10)%Z (6, 14)%Z;
    mk_tok TOther ")" (6, 14)%Z (6, 15)%Z;
    mk_tok TOther ":" (6, 15)%Z (6, 16)%Z;
    mk_tok TOther "return" (6, 17)%Z (6, 23)%Z;
    mk_tok TString "f""{x}""" (6, 24)%Z (6, 30)%Z;
    mk_tok TNewline "
" (6, 30)%Z (6, 31)%Z;
    mk_tok TDedent "" (7, 0)%Z (7, 0)%Z;
    mk_tok TEnd "" (7, 0)%Z (7, 0)%Z]
  = Ok "class A:
    '''doc
    string'''

    # comment
    def g(self): return f""{x}""
".
Proof. vm_compute. reflexivity. Qed.

Example untokenize_5 :
  untokenize [mk_tok TOther "x" (1, 0)%Z (1, 1)%Z;
    mk_tok TOther "=" (1, 2)%Z (1, 3)%Z;
    mk_tok TOther "[" (1, 4)%Z (1, 5)%Z;
    mk_tok TNl "
" (1, 5)%Z (1, 6)%Z;
    mk_tok TOther "1" (2, 4)%Z (2, 5)%Z;
    mk_tok TOther "," (2, 5)%Z (2, 6)%Z;
    mk_tok TNl "
" (2, 6)%Z (2, 7)%Z;
    mk_tok TNl "
" (3, 0)%Z (3, 1)%Z;
    mk_tok TOther "2" (4, 4)%Z (4, 5)%Z;
    mk_tok TOther "," (4, 5)%Z (4, 6)%Z;
    mk_tok TComment "# two" (4, 8)%Z (4, 13)%Z;
    mk_tok TNl "
" (4, 13)%Z (4, 14)%Z;
    mk_tok TOther "]" (5, 0)%Z (5, 1)%Z;
    mk_tok TNewline "
" (5, 1)%Z (5, 2)%Z;
    mk_tok TEnd "" (6, 0)%Z (6, 0)%Z]
  = Ok "x = [
    1,

    2,  # two
]
".
Proof. vm_compute. reflexivity. Qed.

