(** C40: no false alarm about names. *)
From Verif Require Import PyStr Ast AstLib Render Validate Api Grammar SpecVal SpecAnswer SpecScope ProofScope.
Local Open Scope str_scope.
Local Open Scope list_scope.

(** C40.  A statement that reads only columns in scope gets no message about a name.  The scope rules
    ([SpecScope]) cover tables, subqueries and joins of them, with unquoted aliases, stars over
    subqueries, correlated subqueries, and names qualified by an alias. *)
Theorem C40_no_false_alarm : forall ord n es m, sound [] n -> validate_top ord n = Ok es -> In m es -> ~ name_error m.
Proof. exact no_false_alarm. Qed.
Print Assumptions C40_no_false_alarm.
Definition scope_query : str :=
  "select v.a, b + 1 d, count(c) over (partition by y order by k) from (select a, 1 as b, c from t where x) v
   join (select *, 2 u from (select k, f(z) y from s)) w on v.a = w.k
   where b in (select q from (select q, r from p) where q = w.u and r = c) group by a, (d), 3 order by 1, c".
Definition scope_tree : node := Eval vm_compute in match parse_sql scope_query with Ok n => n | Err _ => NNull end.
Example C40_example : parse_sql scope_query = Ok scope_tree /\ sound [] scope_tree /\ validate_top (fun s => s) scope_tree = Ok [].
Proof.
  split; [vm_compute; reflexivity|]. split; [|vm_compute; reflexivity]. unfold scope_tree. scoped.
Qed.
(** Outside the scope rules columns that FROM provides are not always accepted: a quoted
    table with an alias, UNNEST, a subquery with qualified columns, with a qualified star, or with a
    set operation, and grouping by an alias of the select list are reported as missing columns; so are ordering by an
    alias of the select list and a column that a subquery computes by a query. *)
Theorem C40_no_false_alarm_refuted :
  errors_of (fun x => x) "select a from ""t"" u" = Ok ["The column a was not found"]
  /\ errors_of (fun x => x) "select x from unnest(y)" = Ok ["The column x was not found"]
  /\ errors_of (fun x => x) "select x from (select t.x from t)" = Ok ["The column x was not found"]
  /\ errors_of (fun x => x) "select x from (select t.* from t)" = Ok ["The column x was not found"]
  /\ errors_of (fun x => x) "select x from (select x from t union all select x from s)" = Ok ["The column x was not found"]
  /\ errors_of (fun x => x) "select x from t union select x from s" = Ok ["The column x was not found"]
  /\ errors_of (fun x => x) "select x as b from (select x from t) group by b" = Ok ["column ""b"" does not exist"]
  /\ errors_of (fun x => x) "select x b from (select x from t) order by b" = Ok ["The column b was not found"]
  /\ errors_of (fun x => x) "select x from (select (select 1) as x from t)" = Ok ["The column x was not found"].
Proof. vm_compute. repeat split. Qed.
Print Assumptions C40_no_false_alarm_refuted.
