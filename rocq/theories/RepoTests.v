(** GENERATED by tools/gen_repo_tests.py from the assertions in /repo/tests (read as text).
    These are tests of the model, not proofs of properties. *)
From Verif Require Import PyStr Tokeniser Ast Parser Render Validate Api.
Local Open Scope str_scope.
Local Open Scope list_scope.

Definition is_valid (sql : str) : R bool * list str :=
  let '(r, q) := q_is_valid (fun x => x) (new_query sql) in (r, q_errors q).
Definition parse_expr (can_be_type : bool) (sql : str) : R node :=
  let '(ts, eos) := to_tokens sql in
  '(e, _, _) <- p_expr (parsers (parse_fuel ts)) eos
                  (mk_eopts false can_be_type true [] None false) ts ;; Ok e.
Definition parse_where (sql : str) : R node :=
  let '(ts, eos) := to_tokens sql in
  '(e, _, _) <- p_expr (parsers (parse_fuel ts)) eos
     (mk_eopts false false false ["group"; "having"; "order"; "limit"; "offset"; ";"] None false)
     ts ;; Ok e.
Definition parse_from (sql : str) : R node :=
  let '(ts, eos) := to_tokens sql in p_from (parsers (parse_fuel ts)) ts.

(* tests/integration/test_formatting.py:10 *)
Example fmt_test_format_select_star : format_sql "select * from table;" = Ok "SELECT *
FROM table;".
Proof. vm_compute. reflexivity. Qed.

(* tests/integration/test_formatting.py:19 *)
Example fmt_test_upper_function_name : format_sql "select sum(column) FROM table;" = Ok "SELECT SUM(column)
FROM table;".
Proof. vm_compute. reflexivity. Qed.

(* tests/integration/test_formatting.py:28 *)
Example fmt_test_nested_function_name : format_sql "select ifnull(sum(col), 'NOTHING') from table_stmt;" = Ok "SELECT IFNULL(SUM(col), 'NOTHING')
FROM table_stmt;".
Proof. vm_compute. reflexivity. Qed.

(* tests/integration/test_formatting.py:37 *)
Example fmt_test_extract_function : format_sql "select extract(day from date) from table_stmt;" = Ok "SELECT EXTRACT(DAY FROM date)
FROM table_stmt;".
Proof. vm_compute. reflexivity. Qed.

(* tests/integration/test_formatting.py:43 *)
Example fmt_test_no_from_statement : format_sql "select 1;" = Ok "SELECT 1;".
Proof. vm_compute. reflexivity. Qed.

(* tests/integration/test_formatting.py:52 *)
Example fmt_test_simple_column : format_sql "select col from table_stmt;" = Ok "SELECT col
FROM table_stmt;".
Proof. vm_compute. reflexivity. Qed.

(* tests/integration/test_formatting.py:61 *)
Example fmt_test_conditional_column : format_sql "select col = 1 from table_stmt;" = Ok "SELECT col = 1
FROM table_stmt;".
Proof. vm_compute. reflexivity. Qed.

(* tests/integration/test_formatting.py:70 *)
Example fmt_test_conditional_parenthesis_columns : format_sql "select (col + 1) = 4 as out from table_stmt;" = Ok "SELECT (col + 1) = 4 AS out
FROM table_stmt;".
Proof. vm_compute. reflexivity. Qed.

(* tests/integration/test_formatting.py:79 *)
Example fmt_test_simple_aliased_column : format_sql "select col alias from table_stmt;" = Ok "SELECT col alias
FROM table_stmt;".
Proof. vm_compute. reflexivity. Qed.

(* tests/integration/test_formatting.py:88 *)
Example fmt_test_simple_aliased_as_column : format_sql "select col as alias from table_stmt;" = Ok "SELECT col AS alias
FROM table_stmt;".
Proof. vm_compute. reflexivity. Qed.

(* tests/integration/test_formatting.py:97 *)
Example fmt_test_select_except_one_line : format_sql "select * except(field) from table_stmt;" = Ok "SELECT * EXCEPT (field)
FROM table_stmt;".
Proof. vm_compute. reflexivity. Qed.

(* tests/integration/test_formatting.py:110 *)
Example fmt_test_select_except_multi_line : format_sql "select * except(field, col, f2) from table_stmt;" = Ok "SELECT * EXCEPT (
 field,
 col,
 f2
)
FROM table_stmt;".
Proof. vm_compute. reflexivity. Qed.

(* tests/integration/test_formatting.py:121 *)
Example fmt_test_multiple_columns : format_sql "select col, col2 from table_stmt;" = Ok "SELECT
 col,
 col2
FROM table_stmt;".
Proof. vm_compute. reflexivity. Qed.

(* tests/integration/test_formatting.py:132 *)
Example fmt_test_parenthesis : format_sql "select (email,id), id from auth_user;" = Ok "SELECT
 (email, id),
 id
FROM auth_user;".
Proof. vm_compute. reflexivity. Qed.

(* tests/integration/test_formatting.py:143 *)
Example fmt_test_basic_arithmetic : format_sql "select (1+1) add, 2*3, 9/3;" = Ok "SELECT
 (1 + 1) add,
 2 * 3,
 9 / 3;".
Proof. vm_compute. reflexivity. Qed.

(* tests/integration/test_formatting.py:153 *)
Example fmt_test_chained_arithmetic : format_sql "select 1+1+1, 2*3-5" = Ok "SELECT
 1 + 1 + 1,
 2 * 3 - 5".
Proof. vm_compute. reflexivity. Qed.

(* tests/integration/test_formatting.py:165 *)
Example fmt_test_nested_queries : format_sql "select field from (select field from table_stmt);" = Ok "SELECT field
FROM (
 SELECT field
 FROM table_stmt
);".
Proof. vm_compute. reflexivity. Qed.

(* tests/integration/test_formatting.py:181 *)
Example fmt_test_nested_queries_multiple_columns : format_sql "select field, f2 from (select field, f2 from table_stmt);" = Ok "SELECT
 field,
 f2
FROM (
 SELECT
  field,
  f2
 FROM table_stmt
);".
Proof. vm_compute. reflexivity. Qed.

(* tests/integration/test_formatting.py:198 *)
Example fmt_test_two_nested_queries : format_sql "select field from (select field, f2 from (select * from t));" = Ok "SELECT field
FROM (
 SELECT
  field,
  f2
 FROM (
  SELECT *
  FROM t
 )
);".
Proof. vm_compute. reflexivity. Qed.

(* tests/integration/test_formatting.py:207 *)
Example fmt_test_assert_no_semi_colon : format_sql "select * from t" = Ok "SELECT *
FROM t".
Proof. vm_compute. reflexivity. Qed.

(* tests/integration/test_formatting.py:216 *)
Example fmt_test_quoted_from : format_sql "select * from `table`;" = Ok "SELECT *
FROM `table`;".
Proof. vm_compute. reflexivity. Qed.

(* tests/integration/test_formatting.py:226 *)
Example fmt_test_where_clause_boolean_column : format_sql "select * from t where col" = Ok "SELECT *
FROM t
WHERE col".
Proof. vm_compute. reflexivity. Qed.

(* tests/integration/test_formatting.py:236 *)
Example fmt_test_where_clause_boolean_equal : format_sql "select * from t where col = true" = Ok "SELECT *
FROM t
WHERE col = TRUE".
Proof. vm_compute. reflexivity. Qed.

(* tests/integration/test_formatting.py:246 *)
Example fmt_test_where_clause_boolean_is : format_sql "select * from t where col is true" = Ok "SELECT *
FROM t
WHERE col IS TRUE".
Proof. vm_compute. reflexivity. Qed.

(* tests/integration/test_formatting.py:256 *)
Example fmt_test_where_clause_str : format_sql "select * from t where col = 'test'" = Ok "SELECT *
FROM t
WHERE col = 'test'".
Proof. vm_compute. reflexivity. Qed.

(* tests/integration/test_formatting.py:266 *)
Example fmt_test_where_clause_columns : format_sql "select * from t where col = col2" = Ok "SELECT *
FROM t
WHERE col = col2".
Proof. vm_compute. reflexivity. Qed.

(* tests/integration/test_formatting.py:276 *)
Example fmt_test_where_clause_parenthesis_expression : format_sql "select * from t where (col + 1) = col2" = Ok "SELECT *
FROM t
WHERE (col + 1) = col2".
Proof. vm_compute. reflexivity. Qed.

(* tests/integration/test_formatting.py:286 *)
Example fmt_test_where_clause_boolean : format_sql "select * from t where col = 1 and col2=4" = Ok "SELECT *
FROM t
WHERE col = 1 AND col2 = 4".
Proof. vm_compute. reflexivity. Qed.

(* tests/integration/test_formatting.py:296 *)
Example fmt_test_where_clause_parenthesis_boolean : format_sql "select * from t where (col = 1 and (col2=4))" = Ok "SELECT *
FROM t
WHERE (col = 1 AND (col2 = 4))".
Proof. vm_compute. reflexivity. Qed.

(* tests/integration/test_formatting.py:308 *)
Example fmt_test_where_clause_multiple_parenthesis_booleans : format_sql "select * from t where (col = 1 and col2=4) or (col = 2 and (col =6 or col=9))" = Ok "SELECT *
FROM t
WHERE (col = 1 AND col2 = 4) OR (col = 2 AND (col = 6 OR col = 9))".
Proof. vm_compute. reflexivity. Qed.

(* tests/integration/test_formatting.py:318 *)
Example fmt_test_where_clause_multiple_booleans : format_sql "select * from t where col = 1 and col2=4 And col = 2 and col =6 or (col=9)" = Ok "SELECT *
FROM t
WHERE col = 1 AND col2 = 4 AND col = 2 AND col = 6 OR (col = 9)".
Proof. vm_compute. reflexivity. Qed.

(* tests/integration/test_formatting.py:328 *)
Example fmt_test_boolean_conditions_select_where : format_sql "select (col+1) = 3 AND col2=4 from t where (col+1) = 3 AND col2=4" = Ok "SELECT (col + 1) = 3 AND col2 = 4
FROM t
WHERE (col + 1) = 3 AND col2 = 4".
Proof. vm_compute. reflexivity. Qed.

(* tests/integration/test_formatting.py:338 *)
Example fmt_test_parenthesis_boolean_conditions_select_where : format_sql "select ((col+1) = 3 AND col2=4) from t where ((col+1) = 3 AND col2=4)" = Ok "SELECT ((col + 1) = 3 AND col2 = 4)
FROM t
WHERE ((col + 1) = 3 AND col2 = 4)".
Proof. vm_compute. reflexivity. Qed.

(* tests/integration/test_formatting.py:350 *)
Example fmt_test_distinct_on_one_field : format_sql "SELECT DISTINCT ON (location) location, time, report FROM weather_reports;" = Ok "SELECT DISTINCT ON (location)
 location,
 time,
 report
FROM weather_reports;".
Proof. vm_compute. reflexivity. Qed.

(* tests/integration/test_formatting.py:365 *)
Example fmt_test_distinct_on_multiple_fields : format_sql "SELECT DISTINCT ON (location, time) location, time, report FROM weather_reports;" = Ok "SELECT DISTINCT ON (location, time)
 location,
 time,
 report
FROM weather_reports;".
Proof. vm_compute. reflexivity. Qed.

(* tests/integration/test_formatting.py:375 *)
Example fmt_test_empty_group_by : format_sql "SELECT * from t group by ()" = Ok "SELECT *
FROM t
GROUP BY ()".
Proof. vm_compute. reflexivity. Qed.

(* tests/integration/test_formatting.py:385 *)
Example fmt_test_group_by : format_sql "SELECT * from t GROUP BY col" = Ok "SELECT *
FROM t
GROUP BY col".
Proof. vm_compute. reflexivity. Qed.

(* tests/integration/test_formatting.py:395 *)
Example fmt_test_group_by_parenthesis : format_sql "SELECT * from t GROUP BY (col)" = Ok "SELECT *
FROM t
GROUP BY (col)".
Proof. vm_compute. reflexivity. Qed.

(* tests/integration/test_formatting.py:408 *)
Example fmt_test_group_by_multiple_elements : format_sql "SELECT * from t GROUP BY col1, col2, col3" = Ok "SELECT *
FROM t
GROUP BY
 col1,
 col2,
 col3".
Proof. vm_compute. reflexivity. Qed.

(* tests/integration/test_formatting.py:418 *)
Example fmt_test_group_by_multiple_elements_parenthesis : format_sql "SELECT * from t GROUP BY (col1, col2, col3)" = Ok "SELECT *
FROM t
GROUP BY (col1, col2, col3)".
Proof. vm_compute. reflexivity. Qed.

(* tests/integration/test_formatting.py:429 *)
Example fmt_test_where_and_group_by : format_sql "SELECT count(*) from t where x =3 GROUP BY col1;" = Ok "SELECT COUNT(*)
FROM t
WHERE x = 3
GROUP BY col1;".
Proof. vm_compute. reflexivity. Qed.

(* tests/integration/test_formatting.py:439 *)
Example fmt_test_group_by_parenthesis_rollup : format_sql "SELECT * from t GROUP BY ROLLUP (col)" = Ok "SELECT *
FROM t
GROUP BY ROLLUP (col)".
Proof. vm_compute. reflexivity. Qed.

(* tests/integration/test_formatting.py:449 *)
Example fmt_test_group_by_multiple_elements_parenthesis_rollup : format_sql "SELECT * from t GROUP BY ROLLUP (col1, col2, col3);" = Ok "SELECT *
FROM t
GROUP BY ROLLUP (col1, col2, col3);".
Proof. vm_compute. reflexivity. Qed.

(* tests/integration/test_formatting.py:460 *)
Example fmt_test_where_and_having : format_sql "SELECT count(*) from t where x =3 having (sum(x) > 50);" = Ok "SELECT COUNT(*)
FROM t
WHERE x = 3
HAVING (SUM(x) > 50);".
Proof. vm_compute. reflexivity. Qed.

(* tests/integration/test_formatting.py:470 *)
Example fmt_test_order_by : format_sql "SELECT * from t order by col" = Ok "SELECT *
FROM t
ORDER BY col".
Proof. vm_compute. reflexivity. Qed.

(* tests/integration/test_formatting.py:482 *)
Example fmt_test_order_by_mutliple_fields : format_sql "SELECT * from t order by col, 2" = Ok "SELECT *
FROM t
ORDER BY
 col,
 2".
Proof. vm_compute. reflexivity. Qed.

(* tests/integration/test_formatting.py:494 *)
Example fmt_test_order_by_mutliple_fields_order : format_sql "SELECT * from t order by col DESC, 2 ASC" = Ok "SELECT *
FROM t
ORDER BY
 col DESC,
 2 ASC".
Proof. vm_compute. reflexivity. Qed.

(* tests/integration/test_formatting.py:504 *)
Example fmt_test_limit : format_sql "SELECT * from t limit 5" = Ok "SELECT *
FROM t
LIMIT 5".
Proof. vm_compute. reflexivity. Qed.

(* tests/integration/test_formatting.py:514 *)
Example fmt_test_limit_all : format_sql "SELECT * from t limit all" = Ok "SELECT *
FROM t
LIMIT ALL".
Proof. vm_compute. reflexivity. Qed.

(* tests/integration/test_formatting.py:524 *)
Example fmt_test_offset : format_sql "SELECT * from t offset 5" = Ok "SELECT *
FROM t
OFFSET 5".
Proof. vm_compute. reflexivity. Qed.

(* tests/integration/test_formatting.py:543 *)
Example fmt_test_subquery_where : format_sql "
    SELECT any_value(url) f_0
    FROM (SELECT * FROM `toto`
    WHERE http_code <> 0 AND (STARTS_WITH(url, 'https') OR url = 'http://example.com'))
    GROUP BY url_hash
        " = Ok "SELECT ANY_VALUE(url) f_0
FROM (
 SELECT *
 FROM `toto`
 WHERE http_code <> 0 AND (STARTS_WITH(url, 'https') OR url = 'http://example.com')
)
GROUP BY url_hash".
Proof. vm_compute. reflexivity. Qed.

(* tests/integration/test_formatting.py:562 *)
Example fmt_test_aliased_subquery : format_sql "
    SELECT subquery.field
    FROM (SELECT * FROM `table`
    WHERE value <> 0) subquery
    GROUP BY subquery.col
" = Ok "SELECT subquery.field
FROM (
 SELECT *
 FROM `table`
 WHERE value <> 0
) subquery
GROUP BY subquery.col".
Proof. vm_compute. reflexivity. Qed.

(* tests/integration/test_formatting.py:581 *)
Example fmt_test_aliased_as_subquery : format_sql "
    SELECT AGG(subquery.field)
    FROM (SELECT * FROM `table`
    WHERE value <> 0) as subquery
    GROUP BY subquery.col
" = Ok "SELECT AGG(subquery.field)
FROM (
 SELECT *
 FROM `table`
 WHERE value <> 0
) AS subquery
GROUP BY subquery.col".
Proof. vm_compute. reflexivity. Qed.

(* tests/integration/test_formatting.py:604 *)
Example fmt_test_is_not_null_condition : format_sql "
SELECT a.field field
FROM (SELECT field,
field_id
FROM test_1.table_2
WHERE col <> 0 AND long__name__col IS NOT NULL) a
ORDER BY a.field_id
" = Ok "SELECT a.field field
FROM (
 SELECT
  field,
  field_id
 FROM test_1.table_2
 WHERE col <> 0 AND long__name__col IS NOT NULL
) a
ORDER BY a.field_id".
Proof. vm_compute. reflexivity. Qed.

(* tests/integration/test_formatting.py:617 *)
Example fmt_test_filter_not_predicate : format_sql "
SELECT field
FROM tt where not bool_field
" = Ok "SELECT field
FROM tt
WHERE NOT bool_field".
Proof. vm_compute. reflexivity. Qed.

(* tests/integration/test_formatting.py:630 *)
Example fmt_test_boolean_filter_not_predicate : format_sql "
SELECT field
FROM tt where not bool_field and not (x = Y)
" = Ok "SELECT field
FROM tt
WHERE NOT bool_field AND NOT(x = Y)".
Proof. vm_compute. reflexivity. Qed.

(* tests/integration/test_formatting.py:643 *)
Example fmt_test_boolean_filter_first_not_predicate : format_sql "
SELECT field
FROM tt where not (bool_field) and (x = Y)
" = Ok "SELECT field
FROM tt
WHERE NOT(bool_field) AND (x = Y)".
Proof. vm_compute. reflexivity. Qed.

(* tests/integration/test_formatting.py:657 *)
Example fmt_test_basic_join : format_sql "
SELECT field
FROM table JOIN other_table USING (field)
" = Ok "SELECT field
FROM table
JOIN other_table
USING (field)".
Proof. vm_compute. reflexivity. Qed.

(* tests/integration/test_formatting.py:673 *)
Example fmt_test_parenthesis_join : format_sql "
SELECT field
FROM table JOIN (other_table) USING (field)
" = Ok "SELECT field
FROM table
JOIN (
 other_table
)
USING (field)".
Proof. vm_compute. reflexivity. Qed.

(* tests/integration/test_formatting.py:689 *)
Example fmt_test_join_on_clause : format_sql "
SELECT field
FROM table JOIN (other_table) ON f1 = f2
" = Ok "SELECT field
FROM table
JOIN (
 other_table
)
ON f1 = f2".
Proof. vm_compute. reflexivity. Qed.

(* tests/integration/test_formatting.py:707 *)
Example fmt_test_join_long_on_clause : format_sql "
SELECT field
FROM table JOIN (other_table) ON the__first__very__long__field__name__to__join = the__second__very__long__field__name__to__join and f1 = f2
" = Ok "SELECT field
FROM table
JOIN (
 other_table
)
ON
 the__first__very__long__field__name__to__join = the__second__very__long__field__name__to__join
 AND f1 = f2".
Proof. vm_compute. reflexivity. Qed.

(* tests/integration/test_formatting.py:726 *)
Example fmt_test_join_long_on_clause_with_parenthesis : format_sql "
SELECT field
FROM table JOIN (other_table) ON (the__first__very__long__field__name__to__join = the__second__very__long__field__name__to__join and (f1 = f2))
" = Ok "SELECT field
FROM table
JOIN (
 other_table
)
ON (
 the__first__very__long__field__name__to__join = the__second__very__long__field__name__to__join
 AND (f1 = f2)
)".
Proof. vm_compute. reflexivity. Qed.

(* tests/integration/test_formatting.py:742 *)
Example fmt_test_join_on_clause_boolean : format_sql "
SELECT field
FROM table JOIN (other_table) ON f1 = f2 and f3=f4
" = Ok "SELECT field
FROM table
JOIN (
 other_table
)
ON f1 = f2 AND f3 = f4".
Proof. vm_compute. reflexivity. Qed.

(* tests/integration/test_formatting.py:768 *)
Example fmt_test_two_parenthesis_joins_with_group_by : format_sql "
SELECT avg(col), count(*)
FROM table JOIN (other_table) USING (field) FULL OUTER JOIN ( SELECT * FROM last_table WHERE x = 1 ) USING (f2)
GROUP BY field
" = Ok "SELECT
 AVG(col),
 COUNT(*)
FROM table
JOIN (
 other_table
)
USING (field)
FULL OUTER JOIN (
 SELECT *
 FROM last_table
 WHERE x = 1
)
USING (f2)
GROUP BY field".
Proof. vm_compute. reflexivity. Qed.

(* tests/integration/test_formatting.py:875 *)
Example fmt_test_nested_joins : format_sql "
SELECT COALESCE(sq_1.col, sq_2.col) f0_

FROM (SELECT ANY_VALUE(col) col,
LAST_VALUE(ANY_VALUE(col2)) OVER (PARTITION BY ANY_VALUE(col) ORDER BY SUM(clicks) ASC, SUM(metric) ASC RANGE BETWEEN UNBOUNDED PRECEDING AND UNBOUNDED FOLLOWING) last,
hash
FROM (SELECT *
FROM `events`
WHERE _TABLE_SUFFIX BETWEEN '20200410' AND '20200510')
JOIN
(SELECT * EXCEPT (hash)
FROM (SELECT *,
ROW_NUMBER() OVER (PARTITION BY hash) AS rn
FROM `test-table`
WHERE _TABLE_SUFFIX BETWEEN '20200401' AND '20200501')
WHERE rn = 1)
USING (hash)
GROUP BY hash) sq_1

FULL OUTER JOIN

(SELECT ANY_VALUE(col) col,
hash
FROM (SELECT *
FROM `events`
WHERE _TABLE_SUFFIX BETWEEN '20200310' AND '20200410')
JOIN
(SELECT * EXCEPT (hash),
FROM (SELECT *,
ROW_NUMBER() OVER (PARTITION BY hash) AS rn
FROM `test-table`
WHERE _TABLE_SUFFIX BETWEEN '20200301' AND '20200401')
WHERE rn = 1)
USING (hash)
GROUP BY hash) sq_2

ON sq_1.hash = sq_2.hash
WHERE sq_1.last = 1
GROUP BY f0_
" = Ok "SELECT COALESCE(sq_1.col, sq_2.col) f0_
FROM (
 SELECT
  ANY_VALUE(col) col,
  LAST_VALUE(ANY_VALUE(col2)) OVER (
   PARTITION BY ANY_VALUE(col)
   ORDER BY
    SUM(clicks) ASC,
    SUM(metric) ASC
   RANGE BETWEEN UNBOUNDED PRECEDING AND UNBOUNDED FOLLOWING
  ) last,
  hash
 FROM (
  SELECT *
  FROM `events`
  WHERE _TABLE_SUFFIX BETWEEN '20200410' AND '20200510'
 )
 JOIN (
  SELECT * EXCEPT (hash)
  FROM (
   SELECT
    *,
    ROW_NUMBER() OVER (
     PARTITION BY hash
    ) AS rn
   FROM `test-table`
   WHERE _TABLE_SUFFIX BETWEEN '20200401' AND '20200501'
  )
  WHERE rn = 1
 )
 USING (hash)
 GROUP BY hash
) sq_1
FULL OUTER JOIN (
 SELECT
  ANY_VALUE(col) col,
  hash
 FROM (
  SELECT *
  FROM `events`
  WHERE _TABLE_SUFFIX BETWEEN '20200310' AND '20200410'
 )
 JOIN (
  SELECT * EXCEPT (hash)
  FROM (
   SELECT
    *,
    ROW_NUMBER() OVER (
     PARTITION BY hash
    ) AS rn
   FROM `test-table`
   WHERE _TABLE_SUFFIX BETWEEN '20200301' AND '20200401'
  )
  WHERE rn = 1
 )
 USING (hash)
 GROUP BY hash
) sq_2
ON sq_1.hash = sq_2.hash
WHERE sq_1.last = 1
GROUP BY f0_".
Proof. vm_compute. reflexivity. Qed.

(* tests/integration/test_formatting.py:893 *)
Example fmt_test_parenthesis_join_subquery : format_sql "
SELECT field
FROM table JOIN (SELECT * from other_table WHERE date > ""2020-01-01"") USING (field)
" = Ok "SELECT field
FROM table
JOIN (
 SELECT *
 FROM other_table
 WHERE date > ""2020-01-01""
)
USING (field)".
Proof. vm_compute. reflexivity. Qed.

(* tests/integration/test_formatting.py:906 *)
Example fmt_test_partitioning_function : format_sql "SELECT *, row_number() over (partition by x) from t;" = Ok "SELECT
 *,
 ROW_NUMBER() OVER (
  PARTITION BY x
 )
FROM t;".
Proof. vm_compute. reflexivity. Qed.

(* tests/integration/test_formatting.py:920 *)
Example fmt_test_partitioning_function_multiple_params : format_sql "SELECT row_number() over (partition by x,z, x+z) from t;" = Ok "SELECT ROW_NUMBER() OVER (
 PARTITION BY
  x,
  z,
  x + z
)
FROM t;".
Proof. vm_compute. reflexivity. Qed.

(* tests/integration/test_formatting.py:935 *)
Example fmt_test_partitioning_function_multiple_params_with_frame : format_sql "SELECT row_number() over (partition by x,z, x+z rows BETWEEN UNBOUNDED PRECEDING AND UNBOUNDED FOLLOWING) from t;" = Ok "SELECT ROW_NUMBER() OVER (
 PARTITION BY
  x,
  z,
  x + z
 ROWS BETWEEN UNBOUNDED PRECEDING AND UNBOUNDED FOLLOWING
)
FROM t;".
Proof. vm_compute. reflexivity. Qed.

(* tests/integration/test_formatting.py:949 *)
Example fmt_test_partitioning_function_order_by : format_sql "SELECT *, row_number() over (partition by x order BY x) from t;" = Ok "SELECT
 *,
 ROW_NUMBER() OVER (
  PARTITION BY x
  ORDER BY x
 )
FROM t;".
Proof. vm_compute. reflexivity. Qed.

(* tests/integration/test_formatting.py:964 *)
Example fmt_test_partitioning_function_order_by_frame : format_sql "SELECT *, row_number() over (partition by x order BY x rows BETWEEN UNBOUNDED PRECEDING AND UNBOUNDED FOLLOWING) from t;" = Ok "SELECT
 *,
 ROW_NUMBER() OVER (
  PARTITION BY x
  ORDER BY x
  ROWS BETWEEN UNBOUNDED PRECEDING AND UNBOUNDED FOLLOWING
 )
FROM t;".
Proof. vm_compute. reflexivity. Qed.

(* tests/integration/test_formatting.py:981 *)
Example fmt_test_partitioning_function_order_by_multiple : format_sql "SELECT row_number() over (partition by x,z, x+z order by x desc, z ASC)  from t;" = Ok "SELECT ROW_NUMBER() OVER (
 PARTITION BY
  x,
  z,
  x + z
 ORDER BY
  x DESC,
  z ASC
)
FROM t;".
Proof. vm_compute. reflexivity. Qed.

(* tests/integration/test_formatting.py:994 *)
Example fmt_test_partitioning_function_order_by_no_partition : format_sql "SELECT row_number() over (order by x desc, z ASC)  from t;" = Ok "SELECT ROW_NUMBER() OVER (
 ORDER BY
  x DESC,
  z ASC
)
FROM t;".
Proof. vm_compute. reflexivity. Qed.

(* tests/integration/test_formatting.py:1008 *)
Example fmt_test_partitioning_function_order_by_no_partition_with_frame : format_sql "SELECT row_number() over (order by x desc, z ASC RANGE between UNBOUNDED preceding AND unbounded FOLLOWING)  from t;" = Ok "SELECT ROW_NUMBER() OVER (
 ORDER BY
  x DESC,
  z ASC
 RANGE BETWEEN UNBOUNDED PRECEDING AND UNBOUNDED FOLLOWING
)
FROM t;".
Proof. vm_compute. reflexivity. Qed.

(* tests/integration/test_formatting.py:1017 *)
Example fmt_test_partitioning_function_no_order_with_frame : format_sql "SELECT row_number() over (RANGE between UNBOUNDED preceding AND unbounded FOLLOWING)  from t;" = Ok "SELECT ROW_NUMBER() OVER (RANGE BETWEEN UNBOUNDED PRECEDING AND UNBOUNDED FOLLOWING)
FROM t;".
Proof. vm_compute. reflexivity. Qed.

(* tests/integration/test_formatting.py:1026 *)
Example fmt_test_partitioning_function_equals_with_alias : format_sql "SELECT row_number() over (RANGE between UNBOUNDED preceding AND unbounded FOLLOWING) = 1 test from t;" = Ok "SELECT ROW_NUMBER() OVER (RANGE BETWEEN UNBOUNDED PRECEDING AND UNBOUNDED FOLLOWING) = 1 test
FROM t;".
Proof. vm_compute. reflexivity. Qed.

(* tests/integration/test_formatting.py:1035 *)
Example fmt_test_partitioning_function_empty : format_sql "SELECT row_number() over () from t;" = Ok "SELECT ROW_NUMBER() OVER ()
FROM t;".
Proof. vm_compute. reflexivity. Qed.

(* tests/integration/test_formatting.py:1044 *)
Example fmt_test_long_function : format_sql "select (IFNULL(SUM(f1), 0) + (APPROX_COUNT_DISTINCT(IF(f2 >= DATE('2018-04-10'), f3, NULL)) - IFNULL(SUM(f4), 0)) + 50) f_1 from t;" = Ok "SELECT (IFNULL(SUM(f1), 0) + (APPROX_COUNT_DISTINCT(IF(f2 >= DATE('2018-04-10'), f3, NULL)) - IFNULL(SUM(f4), 0)) + 50) f_1
FROM t;".
Proof. vm_compute. reflexivity. Qed.

(* tests/integration/test_formatting.py:1053 *)
Example fmt_test_date_functions_field : format_sql "select DATE(TIMESTAMP_TRUNC(CAST(sq_2.date AS TIMESTAMP), MONTH)) from table as sq_2" = Ok "SELECT DATE(TIMESTAMP_TRUNC(CAST(sq_2.date AS TIMESTAMP), MONTH))
FROM table AS sq_2".
Proof. vm_compute. reflexivity. Qed.

(* tests/integration/test_formatting.py:1068 *)
Example fmt_test_case_expr : format_sql "select case c when 1 THEN 'test' when 1+3 then 'other' else 'none' end from t;" = Ok "SELECT CASE c
 WHEN 1 THEN 'test'
 WHEN 1 + 3 THEN 'other'
 ELSE 'none'
END
FROM t;".
Proof. vm_compute. reflexivity. Qed.

(* tests/integration/test_formatting.py:1084 *)
Example fmt_test_case_expr_multiple_fields : format_sql "select col, col2, case c when 1 THEN 'test' when 1+3 then 'other' else 'none' end from t;" = Ok "SELECT
 col,
 col2,
 CASE c
  WHEN 1 THEN 'test'
  WHEN 1 + 3 THEN 'other'
  ELSE 'none'
 END
FROM t;".
Proof. vm_compute. reflexivity. Qed.

(* tests/integration/test_formatting.py:1097 *)
Example fmt_test_case : format_sql "select case when c = 1 THEN 'test' when c <= 1+3 then 'other' else 'none' end from t;" = Ok "SELECT CASE
 WHEN c = 1 THEN 'test'
 WHEN c <= 1 + 3 THEN 'other'
 ELSE 'none'
END
FROM t;".
Proof. vm_compute. reflexivity. Qed.

(* tests/integration/test_formatting.py:1112 *)
Example fmt_test_case_multiple_fields : format_sql "select col, case when c = 1 THEN 'test' when c <= 1+3 then 'other' else 'none' end from t;" = Ok "SELECT
 col,
 CASE
  WHEN c = 1 THEN 'test'
  WHEN c <= 1 + 3 THEN 'other'
  ELSE 'none'
 END
FROM t;".
Proof. vm_compute. reflexivity. Qed.

(* tests/integration/test_formatting.py:1124 *)
Example fmt_test_case_no_else : format_sql "select case when c = 1 THEN 'test' when c <= 1+3 then 'other' end from t;" = Ok "SELECT CASE
 WHEN c = 1 THEN 'test'
 WHEN c <= 1 + 3 THEN 'other'
END
FROM t;".
Proof. vm_compute. reflexivity. Qed.

(* tests/integration/test_formatting.py:1135 *)
Example fmt_test_index_access : format_sql "select col[0] f0, col[safe_index(-1)] f1 from table;" = Ok "SELECT
 col[0] f0,
 col[SAFE_INDEX(-1)] f1
FROM table;".
Proof. vm_compute. reflexivity. Qed.

(* tests/integration/test_formatting.py:1149 *)
Example fmt_test_array_with_subquery : format_sql "select ARRAY(SELECT struct(dimension, IFNULL(sum(metric),0) ) FROM unnest(f_2) group BY dimension ORDER by dimension) from table" = Ok "SELECT ARRAY(
 SELECT STRUCT(dimension, IFNULL(SUM(metric), 0))
 FROM UNNEST(f_2)
 GROUP BY dimension
 ORDER BY dimension
)
FROM table".
Proof. vm_compute. reflexivity. Qed.

(* tests/integration/test_formatting.py:1165 *)
Example fmt_test_array_with_subquery_multiple_args : format_sql "select ARRAY(SELECT struct(dimension, IFNULL(sum(metric),0) ) FROM unnest(f_2) group BY dimension ORDER by dimension), col from table" = Ok "SELECT
 ARRAY(
  SELECT STRUCT(dimension, IFNULL(SUM(metric), 0))
  FROM UNNEST(f_2)
  GROUP BY dimension
  ORDER BY dimension
 ),
 col
FROM table".
Proof. vm_compute. reflexivity. Qed.

(* tests/integration/test_formatting.py:1177 *)
Example fmt_test_unnest_with_offset : format_sql "SELECT ARRAY( SELECT col from UNNEST(f_2) with offset ) FROM table;" = Ok "SELECT ARRAY(
 SELECT col
 FROM UNNEST(f_2) WITH OFFSET
)
FROM table;".
Proof. vm_compute. reflexivity. Qed.

(* tests/integration/test_formatting.py:1189 *)
Example fmt_test_unnest_with_offset_alias : format_sql "SELECT ARRAY( SELECT a.col from UNNEST(f_2) as a with offset ) FROM table;" = Ok "SELECT ARRAY(
 SELECT a.col
 FROM UNNEST(f_2) AS a WITH OFFSET
)
FROM table;".
Proof. vm_compute. reflexivity. Qed.

(* tests/integration/test_formatting.py:1207 *)
Example fmt_test_unnest_with_offset_both_aliased : format_sql "
SELECT some_field f0,
(SELECT SUM(IF(hh = structure.cq[SAFE_OFFSET(o)], 1, 0))
FROM UNNEST(other_struct.cq) hh WITH offset o) * 100
/ LEAST(other_struct.len, structure.len) f1 from table;" = Ok "SELECT
 some_field f0,
 (
  SELECT SUM(IF(hh = structure.cq[SAFE_OFFSET(o)], 1, 0))
  FROM UNNEST(other_struct.cq) hh WITH OFFSET o
 ) * 100 / LEAST(other_struct.len, structure.len) f1
FROM table;".
Proof. vm_compute. reflexivity. Qed.

(* tests/integration/test_formatting.py:1227 *)
Example fmt_test_function_calls : format_sql "select SAFE_DIVIDE(SUM(SUM(met)) OVER (PARTITION BY ANY_VALUE(hash) ORDER BY SUM(met) DESC, ANY_VALUE(hash2) ASC) ,SUM(SUM(met)) OVER (PARTITION BY ANY_VALUE(hash))) from t group by hash3" = Ok "SELECT SAFE_DIVIDE(
 SUM(SUM(met)) OVER (
  PARTITION BY ANY_VALUE(hash)
  ORDER BY
   SUM(met) DESC,
   ANY_VALUE(hash2) ASC
 ),
 SUM(SUM(met)) OVER (
  PARTITION BY ANY_VALUE(hash)
 )
)
FROM t
GROUP BY hash3".
Proof. vm_compute. reflexivity. Qed.

(* tests/integration/test_formatting.py:1236 *)
Example fmt_test_regex : format_sql "select regexp_replace(field, r'[^a-zA-Z0-9]', '') from t;" = Ok "SELECT REGEXP_REPLACE(field, r'[^a-zA-Z0-9]', '')
FROM t;".
Proof. vm_compute. reflexivity. Qed.

(* tests/integration/test_formatting.py:1249 *)
Example fmt_test_multiple_regexes : format_sql "select REGEXP_REPLACE(regexp_replace(NORMALIZE_AND_CASEFOLD ( arr [SAFE_OFFSET(0)],NFD), r'\p{{Mn}}', ''), r'[^a-zA-Z0-9]', ' ') from t;" = Ok "SELECT REGEXP_REPLACE(
 REGEXP_REPLACE(NORMALIZE_AND_CASEFOLD(arr[SAFE_OFFSET(0)], NFD), r'\p{{Mn}}', ''),
 r'[^a-zA-Z0-9]',
 ' '
)
FROM t;".
Proof. vm_compute. reflexivity. Qed.

(* tests/integration/test_formatting.py:1268 *)
Example fmt_test_parentheses_nested_select : format_sql "select (SELECT SUM(IF(hh = b.some_field.cq[SAFE_OFFSET(o)],1,0))
FROM UNNEST(a.other_field.cq) hh OFFSET o) * 100 / LEAST(a.other_field.len, b.some_field.len) result_field
from t1 a
join t2 b USING (f1)
" = Ok "SELECT (
 SELECT SUM(IF(hh = b.some_field.cq[SAFE_OFFSET(o)], 1, 0))
 FROM UNNEST(a.other_field.cq) hh
 OFFSET o
) * 100 / LEAST(a.other_field.len, b.some_field.len) result_field
FROM t1 a
JOIN t2 b
USING (f1)".
Proof. vm_compute. reflexivity. Qed.

(* tests/integration/test_formatting.py:1278 *)
Example fmt_test_union : format_sql "select f1 from t1 union t2;" = Ok "SELECT f1
FROM t1
UNION t2;".
Proof. vm_compute. reflexivity. Qed.

(* tests/integration/test_formatting.py:1288 *)
Example fmt_test_intersect : format_sql "select f1 from t1 intersect   t2;" = Ok "SELECT f1
FROM t1
INTERSECT t2;".
Proof. vm_compute. reflexivity. Qed.

(* tests/integration/test_formatting.py:1300 *)
Example fmt_test_except : format_sql "select f1 from t1 except select * from `t2`;" = Ok "SELECT f1
FROM t1
EXCEPT
SELECT *
FROM `t2`;".
Proof. vm_compute. reflexivity. Qed.

(* tests/integration/test_formatting.py:1322 *)
Example fmt_test_query_combinations : format_sql "SELECT A FROM TA
INTERSECT SELECT B FROM TB EXCEPT (SELECT C FROM TB)
UNION SELECT D FROM TD" = Ok "SELECT A
FROM TA
INTERSECT
SELECT B
FROM TB
EXCEPT
(
 SELECT C
 FROM TB
)
UNION
SELECT D
FROM TD".
Proof. vm_compute. reflexivity. Qed.

(* tests/integration/test_formatting.py:1336 *)
Example fmt_test_long_function_calls : format_sql "select STRUCT(LENGTH(a_very_very_very_long_field_name_that_takes_quite_some_space) AS len, TO_CODE_POINTS(some_other_very_very_long_field_name) AS cq) a_very_very_long_result_field
from t;
" = Ok "SELECT STRUCT(
 LENGTH(a_very_very_very_long_field_name_that_takes_quite_some_space) AS len,
 TO_CODE_POINTS(some_other_very_very_long_field_name) AS cq
) a_very_very_long_result_field
FROM t;".
Proof. vm_compute. reflexivity. Qed.

(* tests/integration/test_formatting.py:1352 *)
Example fmt_test_long_function_calls_multiple_fields : format_sql "select f1, STRUCT(LENGTH(a_very_very_very_long_field_name_that_takes_quite_some_space) AS len, TO_CODE_POINTS(some_other_very_very_long_field_name) AS cq) a_very_very_long_result_field
from t;
" = Ok "SELECT
 f1,
 STRUCT(
  LENGTH(a_very_very_very_long_field_name_that_takes_quite_some_space) AS len,
  TO_CODE_POINTS(some_other_very_very_long_field_name) AS cq
 ) a_very_very_long_result_field
FROM t;".
Proof. vm_compute. reflexivity. Qed.

(* tests/integration/test_formatting.py:1361 *)
Example fmt_test_capitalized_column_name : format_sql "select COL_name from t;" = Ok "SELECT COL_name
FROM t;".
Proof. vm_compute. reflexivity. Qed.

(* tests/integration/test_formatting.py:1370 *)
Example fmt_test_capitalized_alias : format_sql "select col an_ALIAS from t;" = Ok "SELECT col an_ALIAS
FROM t;".
Proof. vm_compute. reflexivity. Qed.

(* tests/integration/test_formatting.py:1385 *)
Example fmt_test_break_long_where : format_sql "select * from t where this > 0 AND that < 0 AND foo = 4 AND veryveryverylonglonglongname = 'test' OR other_long_long_long_name < 10" = Ok "SELECT *
FROM t
WHERE
 this > 0
 AND that < 0
 AND foo = 4
 AND veryveryverylonglonglongname = 'test'
 OR other_long_long_long_name < 10".
Proof. vm_compute. reflexivity. Qed.

(* tests/integration/test_formatting.py:1402 *)
Example fmt_test_break_long_where_nested_operations : format_sql "select * from t where this > 0 AND that < 0 AND foo = 4 AND (veryveryveryveryveryveryverylonglonglongname = 'test' OR other_long_long_long_long_name < 10)" = Ok "SELECT *
FROM t
WHERE
 this > 0
 AND that < 0
 AND foo = 4
 AND (
  veryveryveryveryveryveryverylonglonglongname = 'test'
  OR other_long_long_long_long_name < 10
 )".
Proof. vm_compute. reflexivity. Qed.

(* tests/integration/test_formatting.py:1421 *)
Example fmt_test_break_long_parenthesis_where_nested_operations : format_sql "select * from t where (this > 0 AND that < 0 AND foo = 4 AND (veryveryveryveryveryveryverylonglonglongname = 'test' OR other_long_long_long_long_name < 10) OR x < 0)" = Ok "SELECT *
FROM t
WHERE (
 this > 0
 AND that < 0
 AND foo = 4
 AND (
  veryveryveryveryveryveryverylonglonglongname = 'test'
  OR other_long_long_long_long_name < 10
 )
 OR x < 0
)".
Proof. vm_compute. reflexivity. Qed.

(* tests/integration/test_formatting.py:1430 *)
Example fmt_test_cast_type : format_sql "select cast(date as date) from t;" = Ok "SELECT CAST(date AS DATE)
FROM t;".
Proof. vm_compute. reflexivity. Qed.

(* tests/integration/test_formatting.py:1442 *)
Example fmt_test_cast_in_condition : format_sql "select * from t where CAST(Date AS DaTe) between '2020-01-01' AND '2020-02-01'" = Ok "SELECT *
FROM t
WHERE CAST(Date AS DATE) BETWEEN '2020-01-01' AND '2020-02-01'".
Proof. vm_compute. reflexivity. Qed.

(* tests/integration/test_formatting.py:1451 *)
Example fmt_test_date_function : format_sql "select date(date) from t" = Ok "SELECT DATE(date)
FROM t".
Proof. vm_compute. reflexivity. Qed.

(* tests/integration/test_formatting.py:1462 *)
Example fmt_test_select_boolean_condition_expression : format_sql "select field is not null and col > 0, x from t;" = Ok "SELECT
 field IS NOT NULL AND col > 0,
 x
FROM t;".
Proof. vm_compute. reflexivity. Qed.

(* tests/integration/test_formatting.py:1471 *)
Example fmt_test_bitwise_operation : format_sql "select field & 64 as col from t;" = Ok "SELECT field & 64 AS col
FROM t;".
Proof. vm_compute. reflexivity. Qed.

(* tests/integration/test_formatting.py:1483 *)
Example fmt_test_cross_join : format_sql "select f1, f2 from t1 cross join t2;" = Ok "SELECT
 f1,
 f2
FROM t1
CROSS JOIN t2;".
Proof. vm_compute. reflexivity. Qed.

(* tests/integration/test_formatting.py:1494 *)
Example fmt_test_implicit_cross_join : format_sql "select f1,f2 from t1, t2;" = Ok "SELECT
 f1,
 f2
FROM t1, t2;".
Proof. vm_compute. reflexivity. Qed.

(* tests/integration/test_formatting.py:1503 *)
Example fmt_test_implicit_cross_join_unnest : format_sql "select field from t1, unnest(t2);" = Ok "SELECT field
FROM t1, UNNEST(t2);".
Proof. vm_compute. reflexivity. Qed.

(* tests/integration/test_formatting.py:1512 *)
Example fmt_test_multiple_joins_unnest : format_sql "select field from t1 a, unnest(t2) as b, unnest(t3) as c;" = Ok "SELECT field
FROM t1 a, UNNEST(t2) AS b, UNNEST(t3) AS c;".
Proof. vm_compute. reflexivity. Qed.

(* tests/integration/test_formatting.py:1530 *)
Example fmt_test_nested_multiple_joins_unnest : format_sql "select field from (select x from (select * from t1) a, unnest(t2) as b,unnest(t3) as c);" = Ok "SELECT field
FROM (
 SELECT x
 FROM (
  SELECT *
  FROM t1
 ) a, UNNEST(t2) AS b, UNNEST(t3) AS c
);".
Proof. vm_compute. reflexivity. Qed.

(* tests/integration/test_formatting.py:1543 *)
Example fmt_test_having_boolean_clause : format_sql "select dim from t group by dim having sum(field) is not null and avg(col) > 0" = Ok "SELECT dim
FROM t
GROUP BY dim
HAVING SUM(field) IS NOT NULL AND AVG(col) > 0".
Proof. vm_compute. reflexivity. Qed.

(* tests/integration/test_formatting.py:1552 *)
Example fmt_test_if_with_date_column_name : format_sql "select if(date(date) = '2020-01-01', 1, 0) from t" = Ok "SELECT IF(DATE(date) = '2020-01-01', 1, 0)
FROM t".
Proof. vm_compute. reflexivity. Qed.

(* tests/integration/test_formatting.py:1586 *)
Example fmt_test_long_nested_where : format_sql "
select * from (
select f from table
  WHERE EXISTS( SELECT 1 FROM UNNEST(long__field__name__multiple__array) AS a WHERE a LIKE '%Travel%' )
   AND STARTS_WITH(the_second_keyword, 'travel')
   AND ( ENDS_WITH(the_first_keyword, 'paris') OR EXISTS( SELECT 1 FROM UNNEST(long__field__name__multiple__array) AS a WHERE a LIKE '%Travel in Paris%' ) )
)
" = Ok "SELECT *
FROM (
 SELECT f
 FROM table
 WHERE
  EXISTS(
   SELECT 1
   FROM UNNEST(long__field__name__multiple__array) AS a
   WHERE a LIKE '%Travel%'
  )
  AND STARTS_WITH(the_second_keyword, 'travel')
  AND (
   ENDS_WITH(the_first_keyword, 'paris')
   OR EXISTS(
    SELECT 1
    FROM UNNEST(long__field__name__multiple__array) AS a
    WHERE a LIKE '%Travel in Paris%'
   )
  )
)".
Proof. vm_compute. reflexivity. Qed.

(* tests/integration/test_formatting.py:1612 *)
Example fmt_test_long_case_when_conditions_line_breaks : format_sql "
select case when(the__very__long__integer__variable_that__is__tested >= 0 AND the__very__long__integer__variable_that__is__tested < 1000) THEN '0000_from_0_to_1000'
   WHEN the__very__long__integer__variable_that__is__tested >= 1000 AND the__very__long__integer__variable_that__is__tested < 10000 THEN '0001_from_1000_to_10000'
   WHEN the__very__long__integer__variable_that__is__tested >= 10000
THEN '0002_from_10000_to_' end
from t;
" = Ok "SELECT CASE
 WHEN (
  the__very__long__integer__variable_that__is__tested >= 0
  AND the__very__long__integer__variable_that__is__tested < 1000
 )
 THEN '0000_from_0_to_1000'
 WHEN
  the__very__long__integer__variable_that__is__tested >= 1000
  AND the__very__long__integer__variable_that__is__tested < 10000
 THEN '0001_from_1000_to_10000'
 WHEN the__very__long__integer__variable_that__is__tested >= 10000 THEN '0002_from_10000_to_'
END
FROM t;".
Proof. vm_compute. reflexivity. Qed.

(* tests/integration/test_formatting.py:1640 *)
Example fmt_test_long_case_when_conditions_line_breaks_multi_column : format_sql "
select x, case when(the__very__long__integer__variable_that__is__tested >= 0 AND the__very__long__integer__variable_that__is__tested < 1000) THEN '0000_from_0_to_1000'
   WHEN the__very__long__integer__variable_that__is__tested >= 1000 AND the__very__long__integer__variable_that__is__tested < 10000 THEN '0001_from_1000_to_10000'
   WHEN the__very__long__integer__variable_that__is__tested >= 10000
THEN '0002_from_10000_to_' end
from t;
" = Ok "SELECT
 x,
 CASE
  WHEN (
   the__very__long__integer__variable_that__is__tested >= 0
   AND the__very__long__integer__variable_that__is__tested < 1000
  )
  THEN '0000_from_0_to_1000'
  WHEN
   the__very__long__integer__variable_that__is__tested >= 1000
   AND the__very__long__integer__variable_that__is__tested < 10000
  THEN '0001_from_1000_to_10000'
  WHEN the__very__long__integer__variable_that__is__tested >= 10000 THEN '0002_from_10000_to_'
 END
FROM t;".
Proof. vm_compute. reflexivity. Qed.

(* tests/integration/test_formatting.py:1655 *)
Example fmt_test_where_in_subquery : format_sql "select * from t where id in (select id from other_t where field <> 0);" = Ok "SELECT *
FROM t
WHERE
 id IN (
  SELECT id
  FROM other_t
  WHERE field <> 0
 );".
Proof. vm_compute. reflexivity. Qed.

(* tests/integration/test_formatting.py:1664 *)
Example fmt_test_table_in_square_brackets : format_sql "select * from [complex.table.name];" = Ok "SELECT *
FROM [complex.table.name];".
Proof. vm_compute. reflexivity. Qed.

(* tests/integration/test_formatting.py:1695 *)
Example fmt_test_union_all_nested_query : format_sql "select * from (
select hash, max(date)
from (
(select * from t1)
UNION ALL (select * from t2)
) group by hash
)" = Ok "SELECT *
FROM (
 SELECT
  hash,
  MAX(date)
 FROM (
  (
   SELECT *
   FROM t1
  )
  UNION ALL
  (
   SELECT *
   FROM t2
  )
 )
 GROUP BY hash
)".
Proof. vm_compute. reflexivity. Qed.

(* tests/integration/test_formatting.py:1704 *)
Example fmt_test_array : format_sql "select [f1, 'x', f2] from t" = Ok "SELECT [f1, 'x', f2]
FROM t".
Proof. vm_compute. reflexivity. Qed.

(* tests/integration/test_formatting.py:1713 *)
Example fmt_test_chained_field : format_sql "select namespace.complex_array[offset(3)].SomeStuff[offset(3)] from t" = Ok "SELECT namespace.complex_array[OFFSET(3)].SomeStuff[OFFSET(3)]
FROM t".
Proof. vm_compute. reflexivity. Qed.

(* tests/integration/test_formatting.py:1722 *)
Example fmt_test_multiple_table_name_with_cross_join : format_sql "select * from x.y.z, a.b.c" = Ok "SELECT *
FROM x.y.z, a.b.c".
Proof. vm_compute. reflexivity. Qed.

(* tests/integration/test_formatting.py:1735 *)
Example fmt_test_multiple_table_name_with_multiple_joins : format_sql "select * from x.y.z, a.b.c join i.j using (k) left join t on p=l;" = Ok "SELECT *
FROM x.y.z, a.b.c
JOIN i.j
USING (k)
LEFT JOIN t
ON p = l;".
Proof. vm_compute. reflexivity. Qed.

(* tests/integration/test_formatting.py:1746 *)
Example fmt_test_where_with_offset_column : format_sql "select sum(x) from UNNEST(c) AS x WITH OFFSET where offset between 1 and 2 offset 5;" = Ok "SELECT SUM(x)
FROM UNNEST(c) AS x WITH OFFSET
WHERE offset BETWEEN 1 AND 2
OFFSET 5;".
Proof. vm_compute. reflexivity. Qed.

(* tests/integration/test_formatting.py:1755 *)
Example fmt_test_struct : format_sql "select struct(f1, f2 as x) from t" = Ok "SELECT STRUCT(f1, f2 AS x)
FROM t".
Proof. vm_compute. reflexivity. Qed.

(* tests/integration/test_formatting.py:1764 *)
Example fmt_test_array_agg : format_sql "SELECT ARRAY_AGG(a) agg from t" = Ok "SELECT ARRAY_AGG(a) agg
FROM t".
Proof. vm_compute. reflexivity. Qed.

(* tests/integration/test_formatting.py:1773 *)
Example fmt_test_array_agg_order_by : format_sql "SELECT ARRAY_AGG(a ORDER BY o) agg from t" = Ok "SELECT ARRAY_AGG(a ORDER BY o) agg
FROM t".
Proof. vm_compute. reflexivity. Qed.

(* tests/integration/test_formatting.py:1782 *)
Example fmt_test_distinct_array_agg_order_by : format_sql "SELECT ARRAY_AGG(distinct a ignore nulls order by o ASC, b desc limit 4) agg from t" = Ok "SELECT ARRAY_AGG(DISTINCT a IGNORE NULLS ORDER BY o ASC, b DESC LIMIT 4) agg
FROM t".
Proof. vm_compute. reflexivity. Qed.

(* tests/integration/test_formatting.py:1800 *)
Example fmt_test_where_boolean_followed_by_group : format_sql "
SELECT *
FROM t
WHERE col1 = col0 and col2 = col0 and col3 = col0
GROUP BY field, col0
" = Ok "SELECT *
FROM t
WHERE col1 = col0 AND col2 = col0 AND col3 = col0
GROUP BY
 field,
 col0".
Proof. vm_compute. reflexivity. Qed.

(* tests/integration/test_formatting.py:1809 *)
Example fmt_test_date_column_in_function_call : format_sql "select if(date >= date('2018-04-10'), col, null) from t" = Ok "SELECT IF(date >= DATE('2018-04-10'), col, NULL)
FROM t".
Proof. vm_compute. reflexivity. Qed.

(* tests/integration/test_formatting.py:1818 *)
Example fmt_test_floating_point_number : format_sql "select f * 0.0009 from t" = Ok "SELECT f * 0.0009
FROM t".
Proof. vm_compute. reflexivity. Qed.

(* tests/integration/test_formatting.py:1829 *)
Example fmt_test_negative_floating_point_number : format_sql "select f-0.0009, -8.9 from t" = Ok "SELECT
 f - 0.0009,
 -8.9
FROM t".
Proof. vm_compute. reflexivity. Qed.

(* tests/integration/test_formatting.py:1847 *)
Example fmt_test_where_not_in_subquery : format_sql "select field
FROM t WHERE id NOT IN (SELECT id
FROM other_table
WHERE col <> 0)" = Ok "SELECT field
FROM t
WHERE
 id NOT IN (
  SELECT id
  FROM other_table
  WHERE col <> 0
 )".
Proof. vm_compute. reflexivity. Qed.

(* tests/integration/test_formatting.py:1857 *)
Example fmt_test_contains_predicate : format_sql "select field from t where x contains 'foo';" = Ok "SELECT field
FROM t
WHERE x CONTAINS 'foo';".
Proof. vm_compute. reflexivity. Qed.

(* tests/integration/test_formatting.py:1866 *)
Example fmt_test_bitwise_shifting : format_sql "select c1<<32 from t" = Ok "SELECT c1 << 32
FROM t".
Proof. vm_compute. reflexivity. Qed.

(* tests/integration/test_formatting.py:1875 *)
Example fmt_test_quoted_table_name : format_sql "SELECT col FROM ""schema"".""table""" = Ok "SELECT col
FROM ""schema"".""table""".
Proof. vm_compute. reflexivity. Qed.

(* tests/integration/test_formatting.py:1884 *)
Example fmt_test_long_quoted_table_name : format_sql "SELECT col FROM ""project"".""dataset"".""table""" = Ok "SELECT col
FROM ""project"".""dataset"".""table""".
Proof. vm_compute. reflexivity. Qed.

(* tests/integration/test_formatting.py:1892 *)
Example fmt_test_extract_date : format_sql "select extract(date from some_date)" = Ok "SELECT EXTRACT(DATE FROM some_date)".
Proof. vm_compute. reflexivity. Qed.

(* tests/integration/test_formatting.py:1901 *)
Example fmt_test_count_distinct : format_sql "SELECT count(distinct id) agg from t" = Ok "SELECT COUNT(DISTINCT id) agg
FROM t".
Proof. vm_compute. reflexivity. Qed.

(* tests/integration/test_formatting.py:1910 *)
Example fmt_test_count_distinct_with_function : format_sql "SELECT count(distinct IF(code = 200, url, NULL)) agg from t" = Ok "SELECT COUNT(DISTINCT IF(code = 200, url, NULL)) agg
FROM t".
Proof. vm_compute. reflexivity. Qed.

(* tests/integration/test_formatting.py:1919 *)
Example fmt_test_count_equal_countif : format_sql "select count(1) = countif(date >= date('1994-04-11')) num_recent from t" = Ok "SELECT COUNT(1) = COUNTIF(date >= DATE('1994-04-11')) num_recent
FROM t".
Proof. vm_compute. reflexivity. Qed.

(* tests/integration/test_formatting.py:1929 *)
Example fmt_test_invalid_join_missing_using_or_on : format_sql "SELECT field FROM table JOIN other_table" = Ok "SELECT field
FROM table
JOIN other_table".
Proof. vm_compute. reflexivity. Qed.

(* tests/integration/test_formatting.py:1942 *)
Example fmt_test_string_alias : format_sql "select x `alias`, y ""alias"", z 'alias', 'col' AS 'alias' from t" = Ok "SELECT
 x `alias`,
 y ""alias"",
 z 'alias',
 'col' AS 'alias'
FROM t".
Proof. vm_compute. reflexivity. Qed.

(* tests/integration/test_formatting.py:1954 *)
Example fmt_test_index_chained_column : format_sql "select field.`col`[SAFE_OFFSET(2)] from t where
    field.`col`[SAFE_OFFSET(2)] IS NOT NULL;
    " = Ok "SELECT field.`col`[SAFE_OFFSET(2)]
FROM t
WHERE field.`col`[SAFE_OFFSET(2)] IS NOT NULL;".
Proof. vm_compute. reflexivity. Qed.

(* tests/integration/test_formatting.py:1966 *)
Example fmt_test_group_each_by : format_sql "select f, sum(s) from t group each by f;" = Ok "SELECT
 f,
 SUM(s)
FROM t
GROUP EACH BY f;".
Proof. vm_compute. reflexivity. Qed.

(* tests/integration/test_formatting.py:1983 *)
Example fmt_test_plain_join_each : format_sql "
SELECT field
FROM table JOIN EACH (select * from other_table) USING (field)
" = Ok "SELECT field
FROM table
JOIN EACH (
 SELECT *
 FROM other_table
)
USING (field)".
Proof. vm_compute. reflexivity. Qed.

(* tests/integration/test_formatting.py:1995 *)
Example fmt_test_escaped_char : format_sql "
select id from users WHERE name = 'O\'Connor'
" = Ok "SELECT id
FROM users
WHERE name = 'O\'Connor'".
Proof. vm_compute. reflexivity. Qed.

(* tests/integration/test_formatting.py:2004 *)
Example fmt_test_filter_where : format_sql "select count(1) filter (where active = true) from users" = Ok "SELECT COUNT(1) FILTER (WHERE active = TRUE)
FROM users".
Proof. vm_compute. reflexivity. Qed.

(* tests/integration/test_formatting.py:2016 *)
Example fmt_test_filter_where_alias : format_sql "select id, count(1) filter (where active = true) c from users group by id" = Ok "SELECT
 id,
 COUNT(1) FILTER (WHERE active = TRUE) c
FROM users
GROUP BY id".
Proof. vm_compute. reflexivity. Qed.

(* tests/integration/test_formatting.py:2035 *)
Example fmt_test_filter_where_alias_as : format_sql "select id c0, count(1) filter (where active = true and ok) as c1,count(1) filter (WHERE 1 =1 or 2=1) as c2, name from users group by id, name" = Ok "SELECT
 id c0,
 COUNT(1) FILTER (WHERE active = TRUE AND ok) AS c1,
 COUNT(1) FILTER (WHERE 1 = 1 OR 2 = 1) AS c2,
 name
FROM users
GROUP BY
 id,
 name".
Proof. vm_compute. reflexivity. Qed.

(* tests/integration/test_formatting.py:2060 *)
Example fmt_test_with_statement : format_sql "
with tmp_t as (select id, sum(n) from t group by id)
select id, count(*) from myt
join tmp_t using (id)
group by id" = Ok "WITH tmp_t AS (
 SELECT
  id,
  SUM(n)
 FROM t
 GROUP BY id
)
SELECT
 id,
 COUNT(*)
FROM myt
JOIN tmp_t
USING (id)
GROUP BY id".
Proof. vm_compute. reflexivity. Qed.

(* tests/integration/test_formatting.py:2109 *)
Example fmt_test_multiple_with_statements : format_sql "
    WITH regional_sales AS (
        SELECT region, SUM(amount) AS total_sales
        FROM orders GROUP BY region
     ), top_regions AS (
        SELECT region FROM regional_sales
        WHERE total_sales > (SELECT SUM(total_sales)/10 FROM regional_sales)
     )
SELECT region, product,
       SUM(quantity) AS product_units,
       SUM(amount) AS product_sales
FROM orders WHERE region IN (SELECT region FROM top_regions)
GROUP BY region, product;" = Ok "WITH regional_sales AS (
 SELECT
  region,
  SUM(amount) AS total_sales
 FROM orders
 GROUP BY region
),
top_regions AS (
 SELECT region
 FROM regional_sales
 WHERE
  total_sales > (
   SELECT SUM(total_sales) / 10
   FROM regional_sales
  )
)
SELECT
 region,
 product,
 SUM(quantity) AS product_units,
 SUM(amount) AS product_sales
FROM orders
WHERE
 region IN (
  SELECT region
  FROM top_regions
 )
GROUP BY
 region,
 product;".
Proof. vm_compute. reflexivity. Qed.

(* tests/integration/test_formatting.py:2127 *)
Example fmt_test_nested_with_statement : format_sql "
select * from
( with t as ( select 1 foo ) select * from t )
" = Ok "SELECT *
FROM (
 WITH t AS (
  SELECT 1 foo
 )
 SELECT *
 FROM t
)".
Proof. vm_compute. reflexivity. Qed.

(* tests/integration/test_formatting.py:2136 *)
Example fmt_test_function_with_index_access : format_sql "select split(col, ':')[safe_offset(0)] from t" = Ok "SELECT SPLIT(col, ':')[SAFE_OFFSET(0)]
FROM t".
Proof. vm_compute. reflexivity. Qed.

(* tests/integration/test_formatting.py:2145 *)
Example fmt_test_multiple_index_accesses : format_sql "select array_concat_agg(col)[0][0] from t" = Ok "SELECT ARRAY_CONCAT_AGG(col)[0][0]
FROM t".
Proof. vm_compute. reflexivity. Qed.

(* tests/integration/test_formatting.py:2154 *)
Example fmt_test_string_containing_quote : format_sql "select col = ""Test'"" from t" = Ok "SELECT col = ""Test'""
FROM t".
Proof. vm_compute. reflexivity. Qed.

(* tests/integration/test_formatting.py:2163 *)
Example fmt_test_select_star_replace : format_sql "select * replace (""x"" as col) from t" = Ok "SELECT * REPLACE (""x"" AS col)
FROM t".
Proof. vm_compute. reflexivity. Qed.

(* tests/integration/test_formatting.py:2175 *)
Example fmt_test_select_star_multiple_replace : format_sql "select * replace (""x"" as col, ""y"" as f) from t" = Ok "SELECT * REPLACE (
 ""x"" AS col,
 ""y"" AS f
)
FROM t".
Proof. vm_compute. reflexivity. Qed.

(* tests/integration/test_formatting.py:2184 *)
Example fmt_test_select_star_replace_nospace : format_sql "select * replace(""x"" as col) from t" = Ok "SELECT * REPLACE (""x"" AS col)
FROM t".
Proof. vm_compute. reflexivity. Qed.

(* tests/integration/test_formatting.py:2207 *)
Example fmt_test_nesting_case_expr : format_sql "SELECT CASE
    WHEN CASE
    WHEN code = 1 THEN 'VALID'
    WHEN code = 2 THEN 'INVALID' END
   = 'VALID' THEN 'OK' ELSE 'KO' END
FROM table
" = Ok "SELECT CASE
 WHEN
  CASE
   WHEN code = 1 THEN 'VALID'
   WHEN code = 2 THEN 'INVALID'
  END = 'VALID'
 THEN 'OK'
 ELSE 'KO'
END
FROM table".
Proof. vm_compute. reflexivity. Qed.

(* tests/integration/test_validation.py:24 *)
Example val_test_select_star_from : is_valid "SELECT * FROM table" = (Ok true, []).
Proof. vm_compute. reflexivity. Qed.

(* tests/integration/test_validation.py:29 *)
Example val_test_select_field_from : is_valid "SELECT field FROM table" = (Ok true, []).
Proof. vm_compute. reflexivity. Qed.

(* tests/integration/test_validation.py:34 *)
Example val_test_nested_select : is_valid "SELECT field FROM (SELECT * FROM table)" = (Ok true, []).
Proof. vm_compute. reflexivity. Qed.

(* tests/integration/test_validation.py:39 *)
Example val_test_no_from : is_valid "SELECT 1, 'test'" = (Ok true, []).
Proof. vm_compute. reflexivity. Qed.

(* tests/integration/test_validation.py:44 *)
Example val_test_nested_select_without_field : fst (is_valid "SELECT field2 FROM (SELECT field1 FROM table)") = Ok false.
Proof. vm_compute. reflexivity. Qed.

(* tests/integration/test_validation.py:49 *)
Example val_test_nested_select_with_star : is_valid "SELECT * FROM (SELECT field1 FROM table)" = (Ok true, []).
Proof. vm_compute. reflexivity. Qed.

(* tests/integration/test_validation.py:54 *)
Example val_test_no_from_with_field : fst (is_valid "SELECT field") = Ok false.
Proof. vm_compute. reflexivity. Qed.

(* tests/integration/test_validation.py:59 *)
Example val_test_where_without_from : fst (is_valid "SELECT 1 WHERE col = 3") = Ok false.
Proof. vm_compute. reflexivity. Qed.

(* tests/integration/test_validation.py:64 *)
Example val_test_where_parenthesis_without_from : fst (is_valid "SELECT 1 WHERE (col = 3)") = Ok false.
Proof. vm_compute. reflexivity. Qed.

(* tests/integration/test_validation.py:71 *)
Example val_test_where_boolean_condition : fst (is_valid "SELECT field1 FROM (SELECT field1 FROM table) WHERE field1 = 3 and field2 = 4") = Ok false.
Proof. vm_compute. reflexivity. Qed.

(* tests/integration/test_validation.py:76 *)
Example val_test_where_constant_columns : is_valid "SELECT 1 WHERE 'test' = 't' and 4 > 5" = (Ok true, []).
Proof. vm_compute. reflexivity. Qed.

(* tests/integration/test_validation.py:81 *)
Example val_test_nested_select_without_where_field : fst (is_valid "SELECT field1 FROM (SELECT field1 FROM table) WHERE field2 = 3") = Ok false.
Proof. vm_compute. reflexivity. Qed.

(* tests/integration/test_validation.py:86 *)
Example val_test_where_clause_returns_boolean : is_valid "SELECT 1 WHERE 'test' LIKE '%t%'" = (Ok true, []).
Proof. vm_compute. reflexivity. Qed.

(* tests/integration/test_validation.py:91 *)
Example val_test_where_clause_not_boolean_but_string : fst (is_valid "SELECT 1 WHERE 'test'") = Ok false.
Proof. vm_compute. reflexivity. Qed.

(* tests/integration/test_validation.py:96 *)
Example val_test_where_clause_not_boolean_but_integer : fst (is_valid "SELECT 1 WHERE 5") = Ok false.
Proof. vm_compute. reflexivity. Qed.

(* tests/integration/test_validation.py:101 *)
Example val_test_group_without_by : fst (is_valid "SELECT 1 GROUP 1") = Ok false.
Proof. vm_compute. reflexivity. Qed.

(* tests/integration/test_validation.py:106 *)
Example val_test_group_by_existing_position : is_valid "SELECT 1 GROUP BY 1" = (Ok true, []).
Proof. vm_compute. reflexivity. Qed.

(* tests/integration/test_validation.py:111 *)
Example val_test_group_by_unknown_position : fst (is_valid "SELECT 1 GROUP BY 2") = Ok false.
Proof. vm_compute. reflexivity. Qed.

(* tests/integration/test_validation.py:116 *)
Example val_test_group_by_unknown_position_parenthesis : fst (is_valid "SELECT 1 GROUP BY ((2));") = Ok false.
Proof. vm_compute. reflexivity. Qed.

(* tests/integration/test_validation.py:121 *)
Example val_test_group_by_negative_position : fst (is_valid "SELECT 1 GROUP BY -1;") = Ok false.
Proof. vm_compute. reflexivity. Qed.

(* tests/integration/test_validation.py:126 *)
Example val_test_group_by_unknown_column : fst (is_valid "SELECT 1 GROUP BY x") = Ok false.
Proof. vm_compute. reflexivity. Qed.

(* tests/integration/test_validation.py:131 *)
Example val_test_group_by_implicit_column : is_valid "SELECT COUNT(y) FROM 'table' GROUP BY x" = (Ok true, []).
Proof. vm_compute. reflexivity. Qed.

(* tests/integration/test_validation.py:136 *)
Example val_test_group_by_known_column_star : is_valid "SELECT COUNT(y) FROM (select * from 'table') GROUP BY x" = (Ok true, []).
Proof. vm_compute. reflexivity. Qed.

(* tests/integration/test_validation.py:141 *)
Example val_test_group_by_known_column : is_valid "SELECT COUNT(y) FROM (select x, y from 'table') GROUP BY x" = (Ok true, []).
Proof. vm_compute. reflexivity. Qed.

(* tests/integration/test_validation.py:146 *)
Example val_test_group_by_unknown_column_with_from : fst (is_valid "SELECT COUNT(y) FROM (select y from 'table') GROUP BY x") = Ok false.
Proof. vm_compute. reflexivity. Qed.

(* tests/integration/test_validation.py:151 *)
Example val_test_having_non_boolean_constant : fst (is_valid "SELECT 2 HAVING 1;") = Ok false.
Proof. vm_compute. reflexivity. Qed.

(* tests/integration/test_validation.py:156 *)
Example val_test_having_condition_constants : is_valid "SELECT 2 HAVING 1 = 1;" = (Ok true, []).
Proof. vm_compute. reflexivity. Qed.

(* tests/integration/test_validation.py:161 *)
Example val_test_having_unknown_column : fst (is_valid "SELECT 1 HAVING x") = Ok false.
Proof. vm_compute. reflexivity. Qed.

(* tests/integration/test_validation.py:166 *)
Example val_test_having_unknown_column_parenthesis : fst (is_valid "SELECT 1 HAVING ((x))") = Ok false.
Proof. vm_compute. reflexivity. Qed.

(* tests/integration/test_validation.py:171 *)
Example val_test_having_multiple_unknown_column_parenthesis : fst (is_valid "SELECT 1 HAVING 1=1 and ((x))") = Ok false.
Proof. vm_compute. reflexivity. Qed.

(* tests/integration/test_validation.py:176 *)
Example val_test_order_without_by : fst (is_valid "SELECT 1 ORDER 1") = Ok false.
Proof. vm_compute. reflexivity. Qed.

(* tests/integration/test_validation.py:181 *)
Example val_test_order_by_known_position : is_valid "SELECT 1 ORDER BY ((1))" = (Ok true, []).
Proof. vm_compute. reflexivity. Qed.

(* tests/integration/test_validation.py:186 *)
Example val_test_order_by_unknown_position : fst (is_valid "SELECT 1 ORDER BY 2") = Ok false.
Proof. vm_compute. reflexivity. Qed.

(* tests/integration/test_validation.py:191 *)
Example val_test_order_by_unknown_column : fst (is_valid "SELECT 1 ORDER BY x") = Ok false.
Proof. vm_compute. reflexivity. Qed.

(* tests/integration/test_validation.py:196 *)
Example val_test_order_by_unknown_column_parenthesis : fst (is_valid "SELECT 1 ORDER BY (x)") = Ok false.
Proof. vm_compute. reflexivity. Qed.

(* tests/integration/test_validation.py:201 *)
Example val_test_order_by_known_column : is_valid "SELECT COUNT(y) FROM (select x, y from 'table') ORDER BY x" = (Ok true, []).
Proof. vm_compute. reflexivity. Qed.

(* tests/integration/test_validation.py:206 *)
Example val_test_order_by_unknown_column_with_from : fst (is_valid "SELECT COUNT(y) FROM (select y from 'table') ORDER BY x") = Ok false.
Proof. vm_compute. reflexivity. Qed.

(* tests/integration/test_validation.py:211 *)
Example val_test_limit_integer : is_valid "SELECT 1 LIMIT 3" = (Ok true, []).
Proof. vm_compute. reflexivity. Qed.

(* tests/integration/test_validation.py:216 *)
Example val_test_limit_zero : is_valid "SELECT 1 LIMIT 0;" = (Ok true, []).
Proof. vm_compute. reflexivity. Qed.

(* tests/integration/test_validation.py:221 *)
Example val_test_limit_negative_integer : fst (is_valid "SELECT 1 LIMIT -3") = Ok false.
Proof. vm_compute. reflexivity. Qed.

(* tests/integration/test_validation.py:226 *)
Example val_test_limit_integer_parenthesis : is_valid "SELECT 1 LIMIT (((3)))" = (Ok true, []).
Proof. vm_compute. reflexivity. Qed.

(* tests/integration/test_validation.py:231 *)
Example val_test_limit_column : fst (is_valid "SELECT 1 LIMIT x") = Ok false.
Proof. vm_compute. reflexivity. Qed.

(* tests/integration/test_validation.py:236 *)
Example val_test_limit_column_with_from : fst (is_valid "SELECT 1 from table LIMIT x;") = Ok false.
Proof. vm_compute. reflexivity. Qed.

(* tests/integration/test_validation.py:241 *)
Example val_test_limit_multiple_integers : fst (is_valid "SELECT 1 from table LIMIT 1, 2;") = Ok false.
Proof. vm_compute. reflexivity. Qed.

(* tests/integration/test_validation.py:246 *)
Example val_test_offset : is_valid "SELECT 1 from table OFFSET 1;" = (Ok true, []).
Proof. vm_compute. reflexivity. Qed.

(* tests/integration/test_validation.py:251 *)
Example val_test_offset_parenthesis : is_valid "SELECT 1 from table OFFSET ((1));" = (Ok true, []).
Proof. vm_compute. reflexivity. Qed.

(* tests/integration/test_validation.py:256 *)
Example val_test_offset_negative : fst (is_valid "SELECT 1 from table OFFSET -1;") = Ok false.
Proof. vm_compute. reflexivity. Qed.

(* tests/integration/test_validation.py:261 *)
Example val_test_offset_variable : fst (is_valid "SELECT 1 from table OFFSET (x)") = Ok false.
Proof. vm_compute. reflexivity. Qed.

(* tests/integration/test_validation.py:266 *)
Example val_test_group_by_alias : is_valid "SELECT x + y f0 FROM (select x, y from table) GROUP BY f0" = (Ok true, []).
Proof. vm_compute. reflexivity. Qed.

(* tests/integration/test_validation.py:271 *)
Example val_test_invalid_join_missing_using_or_on : fst (is_valid "SELECT field FROM table JOIN other_table") = Ok false.
Proof. vm_compute. reflexivity. Qed.

(* tests/integration/test_validation.py:280 *)
Example val_test_functioncall_expressions_missing_from_subquery : fst (is_valid "
    select APPROX_COUNT_DISTINCT(IF(field <> 0, column , NULL)) f_0
    from (
    select x from table)
    ") = Ok false.
Proof. vm_compute. reflexivity. Qed.

(* tests/integration/test_validation.py:289 *)
Example val_test_functioncall_expressions_in_subquery : is_valid "
    select APPROX_COUNT_DISTINCT(IF(field <> 0, column , NULL)) f_0
    from (
    select field, (a+b) * x column from table)
    " = (Ok true, []).
Proof. vm_compute. reflexivity. Qed.

(* tests/integration/test_validation.py:298 *)
Example val_test_functioncall_expressions_in_subquery_star : is_valid "
    select APPROX_COUNT_DISTINCT(IF(field <> 0, column , NULL)) f_0
    from (
    select * from table)
    " = (Ok true, []).
Proof. vm_compute. reflexivity. Qed.

(* tests/integration/test_validation.py:307 *)
Example val_test_missing_nested_subquery_columns : fst (is_valid "
    select x
    from (
    select x from (select field, column from table))
    ") = Ok false.
Proof. vm_compute. reflexivity. Qed.

(* tests/integration/test_validation.py:316 *)
Example val_test_nested_subquery_columns : is_valid "
    select x
    from (
    select x from (select x from table))
    " = (Ok true, []).
Proof. vm_compute. reflexivity. Qed.

(* tests/integration/test_validation.py:325 *)
Example val_test_nested_subquery_columns_star : is_valid "
    select x
    from (
    select * from (select x from table))
    " = (Ok true, []).
Proof. vm_compute. reflexivity. Qed.

(* tests/integration/test_validation.py:334 *)
Example val_test_missing_nested_subquery_columns_star : fst (is_valid "
    select x
    from (
    select * from (select field from table))
    ") = Ok false.
Proof. vm_compute. reflexivity. Qed.

(* tests/integration/test_validation.py:345 *)
Example val_test_missing_chained_columns : is_valid "
    select a.x, b.y
    from (
    select o from table) a
    JOIN (other_table) b
    USING (o)
    " = (Ok false, ["The column x was not found in alias a"]).
Proof. vm_compute. reflexivity. Qed.

(* tests/integration/test_validation.py:356 *)
Example val_test_missing_table_alias_chained_columns : is_valid "
    select a.x, b.y
    from (
    select x from table) a
    JOIN (select x, y from other_table) c
    USING (x)
    " = (Ok false, ["The column y was not found in alias b"]).
Proof. vm_compute. reflexivity. Qed.

(* tests/integration/test_validation.py:367 *)
Example val_test_chained_columns_from_join : is_valid "
    select a.x, b.y
    from (
    select x from table) a
    JOIN (other_table) b
    USING (x)
    " = (Ok true, []).
Proof. vm_compute. reflexivity. Qed.

(* tests/integration/test_validation.py:379 *)
Example val_test_partition_by_with_order_by : is_valid "
SELECT
 DENSE_RANK() OVER (
  PARTITION BY f
  ORDER BY col ASC
 ) AS dr
FROM t
" = (Ok true, []).
Proof. vm_compute. reflexivity. Qed.

(* tests/integration/test_validation.py:389 *)
Example val_test_chained_column_is_nested_field : is_valid "
SELECT
 StructField.Id,
 StructField.Name
FROM Table
" = (Ok true, []).
Proof. vm_compute. reflexivity. Qed.

(* tests/integration/test_validation.py:400 *)
Example val_test_chained_column_is_table_alias : is_valid "
SELECT
 StructField.Id,
 StructField.Name
FROM Table StructField
    " = (Ok true, []).
Proof. vm_compute. reflexivity. Qed.

(* tests/integration/test_validation.py:411 *)
Example val_test_chained_column_is_not_table_alias : is_valid "
SELECT
 StructField.Id,
 StructField.Name
FROM Table A
    " = (Ok true, []).
Proof. vm_compute. reflexivity. Qed.

(* tests/integration/test_validation.py:432 *)
Example val_test_know_fields_from_alias : is_valid "
SELECT
 ANY_VALUE(sq_1__x) f_0,
 sq_1__field1 f_1
FROM (
 SELECT
  sq_1.field1 sq_1__field1,
  sq_1.x sq_1__x,
  sq_1.x_hash sq_1__x_hash
 FROM (
  SELECT *
  FROM `{table}`
  WHERE code <> 0
 ) sq_1
)
GROUP BY sq_1__x_hash
" = (Ok true, []).
Proof. vm_compute. reflexivity. Qed.

(* tests/integration/test_validation.py:448 *)
Example val_test_specified_field_from_alias_subquery : is_valid "
SELECT
 sq_1__field f_1
FROM (
 SELECT
  sq_1.field sq_1__field
 FROM (
  SELECT x field
  FROM `test_1.top_orphan_segments_2_3`
 ) sq_1
)
" = (Ok true, []).
Proof. vm_compute. reflexivity. Qed.

(* tests/integration/test_validation.py:464 *)
Example val_test_subquery_field_is_boolean_and_can_where : is_valid "
      SELECT *
      FROM first_table a
      LEFT JOIN (
       SELECT
        field = 0 field_alias,
       FROM other_table
      ) b
      ON a.id = b.id
      WHERE b.field_alias
     )
" = (Ok true, []).
Proof. vm_compute. reflexivity. Qed.

(* tests/integration/test_validation.py:481 *)
Example val_test_subquery_field_is_not_boolean_and_cannot_where : is_valid "
      SELECT *
      FROM first_table a
      LEFT JOIN (
       SELECT
        3 field_alias,
       FROM other_table
      ) b
      ON a.id = b.id
      WHERE b.field_alias
     )
" = (Ok false, ["The argument of WHERE must be type boolean, not type int"]).
Proof. vm_compute. reflexivity. Qed.

(* tests/integration/test_validation.py:498 *)
Example val_test_unknown_type_subquery_field_and_allow_where : is_valid "
      SELECT *
      FROM first_table a
      LEFT JOIN (
       SELECT *
       FROM other_table
      ) b
      ON a.id = b.id
      WHERE b.field
     )
" = (Ok true, []).
Proof. vm_compute. reflexivity. Qed.

(* tests/integration/test_validation.py:509 *)
Example val_test_outer_query_uses_field_without_alias : is_valid "
select n
from (
 select name n
 from trees_tree
) a;
" = (Ok true, []).
Proof. vm_compute. reflexivity. Qed.

(* tests/integration/test_validation.py:523 *)
Example val_test_outer_query_uses_field_without_alias_exists_once : is_valid "
select n
from (
 select name n
 from trees_tree
) a, (
 select name
 from trees_tree
) b;
" = (Ok true, []).
Proof. vm_compute. reflexivity. Qed.

(* tests/integration/test_validation.py:537 *)
Example val_test_ambiguous_not_aliased_field : is_valid "
select n
from (
 select name n
 from trees_tree
) a, (
 select name n
 from trees_tree
) b;
" = (Ok false, ["column ""n"" is ambiguous"]).
Proof. vm_compute. reflexivity. Qed.

(* tests/integration/test_validation.py:547 *)
Example val_test_between_condition_is_valid : is_valid "
    SELECT *
     FROM t
    WHERE
      f BETWEEN 200 AND 299
    " = (Ok true, []).
Proof. vm_compute. reflexivity. Qed.

(* tests/integration/test_validation.py:555 *)
Example val_test_select_star_replace : is_valid "
SELECT * REPLACE (""x"" AS col)
FROM t
" = (Ok true, []).
Proof. vm_compute. reflexivity. Qed.

(* tests/integration/test_validation.py:563 *)
Example val_test_select_star_unknown_column : fst (is_valid "
SELECT * REPLACE (""x"" AS col)
FROM (select field from t)
") = Ok false.
Proof. vm_compute. reflexivity. Qed.

(* tests/integration/test_validation.py:568 *)
Example val_test_tab_as_token_separator : is_valid "	SELECT * FROM	table" = (Ok true, []).
Proof. vm_compute. reflexivity. Qed.

(* tests/unit/test_tokeniser.py:10 *)
Example tok_test_split_with_sep_one_element : split_with_sep "a" 44 = ["a"].
Proof. vm_compute. reflexivity. Qed.

(* tests/unit/test_tokeniser.py:14 *)
Example tok_test_split_with_sep_one_sep : split_with_sep "," 44 = [","].
Proof. vm_compute. reflexivity. Qed.

(* tests/unit/test_tokeniser.py:18 *)
Example tok_test_split_with_sep : split_with_sep "a,b" 44 = ["a"; ","; "b"].
Proof. vm_compute. reflexivity. Qed.

(* tests/unit/test_tokeniser.py:22 *)
Example tok_test_split_with_escaped_sep : split_with_sep "a,b\,c" 44 = ["a"; ","; "b\,c"].
Proof. vm_compute. reflexivity. Qed.

(* tests/unit/test_tokeniser.py:27 *)
Example tok_test_function_tokenizer : to_tokens "foo('BAR FOZ')" = (["foo"; "("; "'"; "BAR FOZ"; "'"; ")"], None).
Proof. vm_compute. reflexivity. Qed.

(* tests/unit/test_tokeniser.py:32 *)
Example tok_test_semi_colon : to_tokens "select * from t;" = (["select"; "*"; "from"; "t"; ";"], None).
Proof. vm_compute. reflexivity. Qed.

(* tests/unit/test_tokeniser.py:37 *)
Example tok_test_arithmetic : to_tokens "2+3*5/7-5" = (["2"; "+"; "3"; "*"; "5"; "/"; "7"; "-"; "5"], None).
Proof. vm_compute. reflexivity. Qed.

(* tests/unit/test_tokeniser.py:42 *)
Example tok_test_floating_point_numbers : to_tokens "5.9998/7-5.34" = (["5.9998"; "/"; "7"; "-"; "5.34"], None).
Proof. vm_compute. reflexivity. Qed.

(* tests/unit/test_tokeniser.py:47 *)
Example tok_test_floating_point_numbers_with_column : to_tokens "f * 5.9998" = (["f"; "*"; "5.9998"], None).
Proof. vm_compute. reflexivity. Qed.

(* tests/unit/test_tokeniser.py:52 *)
Example tok_test_parenthesis_arithmetic : to_tokens "(2+3)" = (["("; "2"; "+"; "3"; ")"], None).
Proof. vm_compute. reflexivity. Qed.

(* tests/unit/test_tokeniser.py:57 *)
Example tok_test_newlines_and_spaces : to_tokens "  
  (
 
 2 
   + 
3)   
" = (["("; "2"; "+"; "3"; ")"], None).
Proof. vm_compute. reflexivity. Qed.

(* tests/unit/test_tokeniser.py:62 *)
Example tok_test_equal_predicate : to_tokens "x=2" = (["x"; "="; "2"], None).
Proof. vm_compute. reflexivity. Qed.

(* tests/unit/test_tokeniser.py:67 *)
Example tok_test_keep_predicates : to_tokens "x >= 2" = (["x"; ">="; "2"], None).
Proof. vm_compute. reflexivity. Qed.

(* tests/unit/test_tokeniser.py:72 *)
Example tok_test_keep_predicates_no_ending : to_tokens "x >=" = (["x"; ">="], None).
Proof. vm_compute. reflexivity. Qed.

(* tests/unit/test_tokeniser.py:77 *)
Example tok_test_keep_different_predicate : to_tokens "x<>2" = (["x"; "<>"; "2"], None).
Proof. vm_compute. reflexivity. Qed.

(* tests/unit/test_tokeniser.py:82 *)
Example tok_test_lt : to_tokens "x<3" = (["x"; "<"; "3"], None).
Proof. vm_compute. reflexivity. Qed.

(* tests/unit/test_tokeniser.py:87 *)
Example tok_test_index : to_tokens "x[3]" = (["x"; "["; "3"; "]"], None).
Proof. vm_compute. reflexivity. Qed.

(* tests/unit/test_tokeniser.py:92 *)
Example tok_test_chained_columns : to_tokens "x.y.z" = (["x"; "."; "y"; "."; "z"], None).
Proof. vm_compute. reflexivity. Qed.

(* tests/unit/test_tokeniser.py:97 *)
Example tok_test_escaped_string : to_tokens "'O\'Connor'" = (["'"; "O\'Connor"; "'"], None).
Proof. vm_compute. reflexivity. Qed.

(* tests/unit/test_tokeniser.py:102 *)
Example tok_test_escaped_string_with_keyword : to_tokens "name = 'O\'Connor'" = (["name"; "="; "'"; "O\'Connor"; "'"], None).
Proof. vm_compute. reflexivity. Qed.

(* tests/unit/test_tokeniser.py:107 *)
Example tok_test_some_string_containing_quote : to_tokens """foo'""" = ([""""; "foo'"; """"], None).
Proof. vm_compute. reflexivity. Qed.

(* tests/unit/test_tokeniser.py:112 *)
Example tok_test_another_string_containing_quote : to_tokens "'foo""'" = (["'"; "foo"""; "'"], None).
Proof. vm_compute. reflexivity. Qed.

(* tests/unit/test_tokeniser.py:117 *)
Example tok_test_string_containing_many_quotes : to_tokens """'f'o'o'""" = ([""""; "'f'o'o'"; """"], None).
Proof. vm_compute. reflexivity. Qed.

(* tests/unit/test_tokeniser.py:122 *)
Example tok_test_string_containing_many_quotes_and_space : to_tokens " ""'f'o'o'""" = ([""""; "'f'o'o'"; """"], None).
Proof. vm_compute. reflexivity. Qed.

(* tests/unit/test_lexer.py:46 *)
Example lex_test_simple_function_parsing : parse_expr false "test(col)" = Ok (NFun "test" [(NColumn "col")]).
Proof. vm_compute. reflexivity. Qed.

(* tests/unit/test_lexer.py:52 *)
Example lex_test_simple_function_parsing_no_args : parse_expr false "test()" = Ok (NFun "test" []).
Proof. vm_compute. reflexivity. Qed.

(* tests/unit/test_lexer.py:58 *)
Example lex_test_simple_function_multiple_params : parse_expr false "test(col, 'Test')" = Ok (NFun "test" [(NColumn "col"); (NString "Test" "'" None)]).
Proof. vm_compute. reflexivity. Qed.

(* tests/unit/test_lexer.py:64 *)
Example lex_test_nested_functions : parse_expr false "test(foo(col))" = Ok (NFun "test" [(NFun "foo" [(NColumn "col")])]).
Proof. vm_compute. reflexivity. Qed.

(* tests/unit/test_lexer.py:82 *)
Example lex_test_nested_date_functions : parse_expr false "DATE(TIMESTAMP_TRUNC(CAST(date AS TIMESTAMP), MONTH))" = Ok (NFun "DATE" [(NFun "TIMESTAMP_TRUNC" [(NCast (NColumn "date") "TIMESTAMP"); (NType "MONTH")])]).
Proof. vm_compute. reflexivity. Qed.

(* tests/unit/test_lexer.py:88 *)
Example lex_test_string_value : parse_expr false "'VAL'" = Ok (NString "VAL" "'" None).
Proof. vm_compute. reflexivity. Qed.

(* tests/unit/test_lexer.py:94 *)
Example lex_test_string_value_double_quotes : parse_expr false """val""" = Ok (NString "val" """" None).
Proof. vm_compute. reflexivity. Qed.

(* tests/unit/test_lexer.py:100 *)
Example lex_test_string_value_back_quotes : parse_expr false "`val`" = Ok (NString "val" "`" None).
Proof. vm_compute. reflexivity. Qed.

(* tests/unit/test_lexer.py:106 *)
Example lex_test_aliased_column : parse_expr false "col AS column_name" = Ok (NAlias (NColumn "col") (inr (NColumn "column_name")) true).
Proof. vm_compute. reflexivity. Qed.

(* tests/unit/test_lexer.py:112 *)
Example lex_test_aliased_string_without_as : parse_expr false "'col' column_name" = Ok (NAlias (NString "col" "'" None) (inl "column_name") false).
Proof. vm_compute. reflexivity. Qed.

(* tests/unit/test_lexer.py:118 *)
Example lex_test_integer : parse_expr false "2" = Ok (NInt (2)).
Proof. vm_compute. reflexivity. Qed.

(* tests/unit/test_lexer.py:124 *)
Example lex_test_negative_integer : parse_expr false "-2" = Ok (NInt (-2)).
Proof. vm_compute. reflexivity. Qed.

(* tests/unit/test_lexer.py:130 *)
Example lex_test_addition : parse_expr false "2+4" = Ok (NArith "+" (NInt (2)) (NInt (4))).
Proof. vm_compute. reflexivity. Qed.

(* tests/unit/test_lexer.py:136 *)
Example lex_test_chained_addition : parse_expr false "2+4+5" = Ok (NArith "+" (NInt (2)) (NArith "+" (NInt (4)) (NInt (5)))).
Proof. vm_compute. reflexivity. Qed.

(* tests/unit/test_lexer.py:142 *)
Example lex_test_conditional_expression : parse_expr false "field = 4" = Ok (NCond (NColumn "field") "=" (NInt (4))).
Proof. vm_compute. reflexivity. Qed.

(* tests/unit/test_lexer.py:148 *)
Example lex_test_parenthesis : parse_expr false "(field)" = Ok (NParen [(NColumn "field")]).
Proof. vm_compute. reflexivity. Qed.

(* tests/unit/test_lexer.py:154 *)
Example lex_test_multiple_parentheses : parse_expr false "((2))" = Ok (NParen [(NParen [(NInt (2))])]).
Proof. vm_compute. reflexivity. Qed.

(* tests/unit/test_lexer.py:162 *)
Example lex_test_parenthesis_conditional : parse_expr false "(field+3) = 4" = Ok (NCond (NParen [(NArith "+" (NColumn "field") (NInt (3)))]) "=" (NInt (4))).
Proof. vm_compute. reflexivity. Qed.

(* tests/unit/test_lexer.py:170 *)
Example lex_test_parenthesis_multiple_elements : parse_expr false "(field,other_field,3,'test')" = Ok (NParen [(NColumn "field"); (NColumn "other_field"); (NInt (3)); (NString "test" "'" None)]).
Proof. vm_compute. reflexivity. Qed.

(* tests/unit/test_lexer.py:182 *)
Example lex_test_from_subquery : parse_from "(select field from table_stmt)" = Ok (NParen [(NSelect [(NColumn "field")] false false None (Some (NTable (NColumn "table_stmt") false)) None None None None None None false)]).
Proof. vm_compute. reflexivity. Qed.

(* tests/unit/test_lexer.py:188 *)
Example lex_test_where_clause : parse_where "col = 3" = Ok (NCond (NColumn "col") "=" (NInt (3))).
Proof. vm_compute. reflexivity. Qed.

(* tests/unit/test_lexer.py:200 *)
Example lex_test_boolean_where_clause : parse_where "col = 3 and field = 5" = Ok (NBoolC "and" (NCond (NColumn "col") "=" (NInt (3))) (NCond (NColumn "field") "=" (NInt (5)))).
Proof. vm_compute. reflexivity. Qed.

(* tests/unit/test_lexer.py:216 *)
Example lex_test_between_where_clause : parse_where "col between 3 and 5" = Ok (NCond (NColumn "col") "between" (NBoolC "and" (NInt (3)) (NInt (5)))).
Proof. vm_compute. reflexivity. Qed.

(* tests/unit/test_lexer.py:224 *)
Example lex_test_where_different_predicate : parse_where "col <> 3" = Ok (NCond (NColumn "col") "<>" (NInt (3))).
Proof. vm_compute. reflexivity. Qed.

(* tests/unit/test_lexer.py:244 *)
Example lex_test_parenthesis_boolean_where_clause : parse_where "(col = 3 and field = 5) or (f2 or f3)" = Ok (NBoolC "or" (NParen [(NBoolC "and" (NCond (NColumn "col") "=" (NInt (3))) (NCond (NColumn "field") "=" (NInt (5))))]) (NParen [(NBoolC "or" (NColumn "f2") (NColumn "f3"))])).
Proof. vm_compute. reflexivity. Qed.

(* tests/unit/test_lexer.py:252 *)
Example lex_test_parenthesis_expression_where_clause : parse_where "(col + 1) = col2" = Ok (NCond (NParen [(NArith "+" (NColumn "col") (NInt (1)))]) "=" (NColumn "col2")).
Proof. vm_compute. reflexivity. Qed.

(* tests/unit/test_lexer.py:270 *)
Example lex_test_multiple_args_boolean_condition : parse_where "(col = 1 and col2=4 and col3=4)" = Ok (NParen [(NBoolC "and" (NCond (NColumn "col") "=" (NInt (1))) (NBoolC "and" (NCond (NColumn "col2") "=" (NInt (4))) (NCond (NColumn "col3") "=" (NInt (4)))))]).
Proof. vm_compute. reflexivity. Qed.

(* tests/unit/test_lexer.py:302 *)
Example lex_test_nested_parenthesis_boolean : parse_where "(col = 1 and col2=4) or (col = 2 and (col =6 or col=9))" = Ok (NBoolC "or" (NParen [(NBoolC "and" (NCond (NColumn "col") "=" (NInt (1))) (NCond (NColumn "col2") "=" (NInt (4))))]) (NParen [(NBoolC "and" (NCond (NColumn "col") "=" (NInt (2))) (NParen [(NBoolC "or" (NCond (NColumn "col") "=" (NInt (6))) (NCond (NColumn "col") "=" (NInt (9))))]))])).
Proof. vm_compute. reflexivity. Qed.

(* tests/unit/test_lexer.py:338 *)
Example lex_test_consecutive_parenthesis : parse_expr false "((col+1) = 3 AND col2=4)" = Ok (NParen [(NBoolC "AND" (NCond (NParen [(NArith "+" (NColumn "col") (NInt (1)))]) "=" (NInt (3))) (NCond (NColumn "col2") "=" (NInt (4))))]).
Proof. vm_compute. reflexivity. Qed.

(* tests/unit/test_lexer.py:346 *)
Example lex_test_select_all : parse_sql "SELECT ALL 1" = Ok (NSelect [(NInt (1))] true false None None None None None None None None false).
Proof. vm_compute. reflexivity. Qed.

(* tests/unit/test_lexer.py:354 *)
Example lex_test_select_distinct : parse_sql "SELECT DISTINCT 1" = Ok (NSelect [(NInt (1))] false true None None None None None None None None false).
Proof. vm_compute. reflexivity. Qed.

(* tests/unit/test_lexer.py:365 *)
Example lex_test_select_distinct_on : parse_sql "SELECT DISTINCT ON (col) col" = Ok (NSelect [(NColumn "col")] false true (Some [(NColumn "col")]) None None None None None None None false).
Proof. vm_compute. reflexivity. Qed.

(* tests/unit/test_lexer.py:375 *)
Example lex_test_group_by_without_from : parse_sql "SELECT 1 GROUP BY 2" = Ok (NSelect [(NInt (1))] false false None None None (Some ([(NInt (2))], false, false)) None None None None false).
Proof. vm_compute. reflexivity. Qed.

(* tests/unit/test_lexer.py:388 *)
Example lex_test_order_by_clause : parse_sql "SELECT col FROM t ORDER BY col, 2" = Ok (NSelect [(NColumn "col")] false false None (Some (NTable (NColumn "t") false)) None None None (Some [(NOrderItem (NColumn "col") false false); (NOrderItem (NInt (2)) false false)]) None None false).
Proof. vm_compute. reflexivity. Qed.

(* tests/unit/test_lexer.py:401 *)
Example lex_test_limit_parentheses : parse_sql "SELECT 1 LIMIT (((3)))" = Ok (NSelect [(NInt (1))] false false None None None None None None (Some (false, (Some (NParen [(NParen [(NParen [(NInt (3))])])])))) None false).
Proof. vm_compute. reflexivity. Qed.

(* tests/unit/test_lexer.py:428 *)
Example lex_test_subquery : parse_sql "SELECT col from (select count(*) col from table group by x) WHERE col > 10 ORDER BY col DESC;" = Ok (NSelect [(NColumn "col")] false false None (Some (NParen [(NSelect [(NAlias (NCount [(NColumn "*")] false) (inl "col") false)] false false None (Some (NTable (NColumn "table") false)) None (Some ([(NColumn "x")], false, false)) None None None None false)])) (Some (NCond (NColumn "col") ">" (NInt (10)))) None None (Some [(NOrderItem (NColumn "col") false true)]) None None true).
Proof. vm_compute. reflexivity. Qed.

(* tests/unit/test_lexer.py:434 *)
Example lex_test_parse_date_function : parse_expr false "DATE('2020-01-01')" = Ok (NFun "DATE" [(NString "2020-01-01" "'" None)]).
Proof. vm_compute. reflexivity. Qed.

(* tests/unit/test_lexer.py:442 *)
Example lex_test_parse_date_function_condition : parse_expr false "col >= DATE('2020-01-01')" = Ok (NCond (NColumn "col") ">=" (NFun "DATE" [(NString "2020-01-01" "'" None)])).
Proof. vm_compute. reflexivity. Qed.

(* tests/unit/test_lexer.py:448 *)
Example lex_test_index_access : parse_expr false "array[0]" = Ok (NIndex (NColumn "array") [(NInt (0))]).
Proof. vm_compute. reflexivity. Qed.

(* tests/unit/test_lexer.py:454 *)
Example lex_test_index_access_alias : parse_expr false "array[0] alias" = Ok (NAlias (NIndex (NColumn "array") [(NInt (0))]) (inl "alias") false).
Proof. vm_compute. reflexivity. Qed.

(* tests/unit/test_lexer.py:460 *)
Example lex_test_index_function_access : parse_expr false "array[index(0)]" = Ok (NIndex (NColumn "array") [(NFun "index" [(NInt (0))])]).
Proof. vm_compute. reflexivity. Qed.

(* tests/unit/test_lexer.py:473 *)
Example lex_test_multiple_indices_access : parse_expr false "array[index(0), 'foo'] alias" = Ok (NAlias (NIndex (NColumn "array") [(NFun "index" [(NInt (0))]); (NString "foo" "'" None)]) (inl "alias") false).
Proof. vm_compute. reflexivity. Qed.

(* tests/unit/test_lexer.py:483 *)
Example lex_test_index_access_right_hand : parse_expr false "field = array[0]" = Ok (NCond (NColumn "field") "=" (NIndex (NColumn "array") [(NInt (0))])).
Proof. vm_compute. reflexivity. Qed.

(* tests/unit/test_lexer.py:752 *)
Example lex_test_nested_joins : parse_sql "
SELECT COALESCE(sq_1.col, sq_2.col) f0_

FROM (SELECT ANY_VALUE(col) col,
LAST_VALUE(ANY_VALUE(col2)) OVER (PARTITION BY ANY_VALUE(col) ORDER BY SUM(clicks) ASC, SUM(metric) ASC RANGE BETWEEN UNBOUNDED PRECEDING AND UNBOUNDED FOLLOWING) last,
hash
FROM (SELECT *
FROM `events`
WHERE _TABLE_SUFFIX BETWEEN '20200410' AND '20200510')
JOIN
(SELECT * EXCEPT (hash)
FROM (SELECT *,
ROW_NUMBER() OVER (PARTITION BY hash) AS rn
FROM `test-table`
WHERE _TABLE_SUFFIX BETWEEN '20200401' AND '20200501')
WHERE rn = 1)
USING (hash)
GROUP BY hash) sq_1

FULL OUTER JOIN

(SELECT ANY_VALUE(col) col,
hash
FROM (SELECT *
FROM `events`
WHERE _TABLE_SUFFIX BETWEEN '20200310' AND '20200410')
JOIN
(SELECT * EXCEPT (hash),
FROM (SELECT *,
ROW_NUMBER() OVER (PARTITION BY hash) AS rn
FROM `test-table`
WHERE _TABLE_SUFFIX BETWEEN '20200301' AND '20200401')
WHERE rn = 1)
USING (hash)
GROUP BY hash) sq_2

ON sq_1.hash = sq_2.hash
WHERE sq_1.last = 1
GROUP BY f0_
" = Ok (NSelect [(NAlias (NFun "COALESCE" [(NChained (NColumn "sq_1") (NColumn "col")); (NChained (NColumn "sq_2") (NColumn "col"))]) (inl "f0_") false)] false false None (Some (NJoin "FULL OUTER JOIN" (NAlias (NParen [(NSelect [(NAlias (NFun "ANY_VALUE" [(NColumn "col")]) (inl "col") false); (NAlias (NAnalytics (NFun "LAST_VALUE" [(NFun "ANY_VALUE" [(NColumn "col2")])]) (Some [(NFun "ANY_VALUE" [(NColumn "col")])]) (Some [(NOrderItem (NFun "SUM" [(NColumn "clicks")]) true false); (NOrderItem (NFun "SUM" [(NColumn "metric")]) true false)]) (Some ("RANGE", "BETWEEN UNBOUNDED PRECEDING AND UNBOUNDED FOLLOWING"))) (inl "last") false); (NColumn "hash")] false false None (Some (NJoin "JOIN" (NParen [(NSelect [(NColumn "*")] false false None (Some (NTable (NString "events" "`" None) false)) (Some (NCond (NColumn "_TABLE_SUFFIX") "BETWEEN" (NBoolC "and" (NString "20200410" "'" None) (NString "20200510" "'" None)))) None None None None None false)]) (NParen [(NSelect [(NExcept (NColumn "*") [(NColumn "hash")])] false false None (Some (NParen [(NSelect [(NColumn "*"); (NAlias (NAnalytics (NFun "ROW_NUMBER" []) (Some [(NColumn "hash")]) None None) (inr (NColumn "rn")) true)] false false None (Some (NTable (NString "test-table" "`" None) false)) (Some (NCond (NColumn "_TABLE_SUFFIX") "BETWEEN" (NBoolC "and" (NString "20200401" "'" None) (NString "20200501" "'" None)))) None None None None None false)])) (Some (NCond (NColumn "rn") "=" (NInt (1)))) None None None None None false)]) None (Some (NParen [(NColumn "hash")])))) None (Some ([(NColumn "hash")], false, false)) None None None None false)]) (inl "sq_1") false) (NAlias (NParen [(NSelect [(NAlias (NFun "ANY_VALUE" [(NColumn "col")]) (inl "col") false); (NColumn "hash")] false false None (Some (NJoin "JOIN" (NParen [(NSelect [(NColumn "*")] false false None (Some (NTable (NString "events" "`" None) false)) (Some (NCond (NColumn "_TABLE_SUFFIX") "BETWEEN" (NBoolC "and" (NString "20200310" "'" None) (NString "20200410" "'" None)))) None None None None None false)]) (NParen [(NSelect [(NExcept (NColumn "*") [(NColumn "hash")])] false false None (Some (NParen [(NSelect [(NColumn "*"); (NAlias (NAnalytics (NFun "ROW_NUMBER" []) (Some [(NColumn "hash")]) None None) (inr (NColumn "rn")) true)] false false None (Some (NTable (NString "test-table" "`" None) false)) (Some (NCond (NColumn "_TABLE_SUFFIX") "BETWEEN" (NBoolC "and" (NString "20200301" "'" None) (NString "20200401" "'" None)))) None None None None None false)])) (Some (NCond (NColumn "rn") "=" (NInt (1)))) None None None None None false)]) None (Some (NParen [(NColumn "hash")])))) None (Some ([(NColumn "hash")], false, false)) None None None None false)]) (inl "sq_2") false) (Some (NCond (NChained (NColumn "sq_1") (NColumn "hash")) "=" (NChained (NColumn "sq_2") (NColumn "hash")))) None)) (Some (NCond (NChained (NColumn "sq_1") (NColumn "last")) "=" (NInt (1)))) (Some ([(NColumn "f0_")], false, false)) None None None None false).
Proof. vm_compute. reflexivity. Qed.

(* tests/unit/test_lexer.py:771 *)
Example lex_test_boolean_condition_as_expression : parse_expr false "field is not null and col > 0" = Ok (NBoolC "and" (NCond (NColumn "field") "is not" NNull) (NCond (NColumn "col") ">" (NInt (0)))).
Proof. vm_compute. reflexivity. Qed.

(* tests/unit/test_lexer.py:795 *)
Example lex_test_select_boolean_condition_expression : parse_sql "select field is not null and col > 0 from t;" = Ok (NSelect [(NBoolC "and" (NCond (NColumn "field") "is not" NNull) (NCond (NColumn "col") ">" (NInt (0))))] false false None (Some (NTable (NColumn "t") false)) None None None None None None true).
Proof. vm_compute. reflexivity. Qed.

(* tests/unit/test_lexer.py:807 *)
Example lex_test_unnest : parse_from "unnest(table)" = Ok (NUnnest (NFun "unnest" [(NColumn "table")]) false false None).
Proof. vm_compute. reflexivity. Qed.

(* tests/unit/test_lexer.py:819 *)
Example lex_test_unnest_with_alias : parse_from "unnest(table) t" = Ok (NUnnest (NAlias (NFun "unnest" [(NColumn "table")]) (inl "t") false) false false None).
Proof. vm_compute. reflexivity. Qed.

(* tests/unit/test_lexer.py:831 *)
Example lex_test_unnest_with_as_alias : parse_from "unnest(table) as t" = Ok (NUnnest (NAlias (NFun "unnest" [(NColumn "table")]) (inl "t") true) false false None).
Proof. vm_compute. reflexivity. Qed.

(* tests/unit/test_lexer.py:843 *)
Example lex_test_unnest_with_offset : parse_from "unnest(table) with offset" = Ok (NUnnest (NFun "unnest" [(NColumn "table")]) true false None).
Proof. vm_compute. reflexivity. Qed.

(* tests/unit/test_lexer.py:855 *)
Example lex_test_unnest_with_offset_alias : parse_from "unnest(table) with offset o" = Ok (NUnnest (NFun "unnest" [(NColumn "table")]) true false (Some "o")).
Proof. vm_compute. reflexivity. Qed.

(* tests/unit/test_lexer.py:867 *)
Example lex_test_unnest_with_offset_as_alias : parse_from "unnest(table) with offset as o" = Ok (NUnnest (NFun "unnest" [(NColumn "table")]) true true (Some "o")).
Proof. vm_compute. reflexivity. Qed.

(* tests/unit/test_lexer.py:879 *)
Example lex_test_unnest_alias_with_offset_as_alias : parse_from "unnest(table) t with offset as o" = Ok (NUnnest (NAlias (NFun "unnest" [(NColumn "table")]) (inl "t") false) true true (Some "o")).
Proof. vm_compute. reflexivity. Qed.

(* tests/unit/test_lexer.py:885 *)
Example lex_test_simple_chained_field : parse_expr false "table.field" = Ok (NChained (NColumn "table") (NColumn "field")).
Proof. vm_compute. reflexivity. Qed.

(* tests/unit/test_lexer.py:899 *)
Example lex_test_chained_field : parse_expr false "table.field[offset(0)].subfield[offset(0)]" = Ok (NChained (NColumn "table") (NChained (NIndex (NColumn "field") [(NFun "offset" [(NInt (0))])]) (NIndex (NColumn "subfield") [(NFun "offset" [(NInt (0))])]))).
Proof. vm_compute. reflexivity. Qed.

(* tests/unit/test_lexer.py:907 *)
Example lex_test_aliased_table : parse_from "table as sq_1" = Ok (NTable (NAlias (NColumn "table") (inr (NColumn "sq_1")) true) false).
Proof. vm_compute. reflexivity. Qed.

(* tests/unit/test_lexer.py:913 *)
Example lex_test_empty_list : parse_expr false "[]" = Ok (NArray []).
Proof. vm_compute. reflexivity. Qed.

(* tests/unit/test_lexer.py:919 *)
Example lex_test_empty_list_with_alias : parse_expr false "[] x" = Ok (NAlias (NArray []) (inl "x") false).
Proof. vm_compute. reflexivity. Qed.

(* tests/unit/test_lexer.py:933 *)
Example lex_test_boolean_condition : parse_expr false "f1 IS NOT NULL AND f2 > 0 fnew" = Ok (NAlias (NBoolC "AND" (NCond (NColumn "f1") "is not" NNull) (NCond (NColumn "f2") ">" (NInt (0)))) (inl "fnew") false).
Proof. vm_compute. reflexivity. Qed.

(* tests/unit/test_lexer.py:962 *)
Example lex_test_chained_columns_with_arithmetic_operator : parse_expr false "IF((a.field + b.field) = 200, 'true', 'false') fa" = Ok (NAlias (NFun "IF" [(NCond (NParen [(NArith "+" (NChained (NColumn "a") (NColumn "field")) (NChained (NColumn "b") (NColumn "field")))]) "=" (NInt (200))); (NString "true" "'" None); (NString "false" "'" None)]) (inl "fa") false).
Proof. vm_compute. reflexivity. Qed.

(* tests/unit/test_lexer.py:968 *)
Example lex_test_function_with_single_comma_string_param : parse_expr false "test(',')" = Ok (NFun "test" [(NString "," "'" None)]).
Proof. vm_compute. reflexivity. Qed.

(* the remaining tests, which do not have the shapes above, transcribed by hand:
   tests/unit/test_tokeniser.py:123-177, tests/unit/test_lexer.py:305-320, tests/unit/test_sql.py *)
Example tok_keep_tokens_in :
  until_not_in None ["foo"; "bar"] None ["foo"; "bar"; "baz"] = Ok (["foo"; "bar"], Some "baz", []).
Proof. reflexivity. Qed.
Example tok_keep_tokens_in_parenthesis :
  until_not_in None ["foo"; "bar"] None ["foo"; "("; "no"; ")"; "bar"; "baz"]
  = Ok (["foo"], Some "(", ["no"; ")"; "bar"; "baz"]).
Proof. reflexivity. Qed.
Example tok_until :
  until_one_of None ["bar"] None [] ["foo"; "bar"; "baz"] = Ok (["foo"], Some "bar", ["baz"]).
Proof. reflexivity. Qed.
Example tok_until_empty :
  until_one_of None [] None [] ["foo"; "bar"; "baz"] = Ok (["foo"; "bar"; "baz"], None, []).
Proof. reflexivity. Qed.
Example tok_until_with_first :
  until_one_of None ["bar"] (Some "fib") [] ["foo"; "bar"; "baz"]
  = Ok (["fib"; "foo"], Some "bar", ["baz"]).
Proof. reflexivity. Qed.
Example tok_until_with_keep :
  until_one_of None ["offset"] None [("with", "offset")] ["foo"; "with"; "offset"; "offset"]
  = Ok (["foo"; "with"; "offset"], Some "offset", []).
Proof. reflexivity. Qed.
Example tok_until_with_keep_capitalised :
  until_one_of None ["offset"] None [("with", "offset")] ["foo"; "WITH"; "offset"; "offset"]
  = Ok (["foo"; "WITH"; "offset"], Some "offset", []).
Proof. reflexivity. Qed.
Example tok_empty_list_until : until_one_of None ["]"] None [] ["]"] = Ok ([], Some "]", []).
Proof. reflexivity. Qed.
Definition parse_where_rest (sql : str) :=
  let '(ts, eos) := to_tokens sql in
  p_expr (parsers (parse_fuel ts)) eos
     (mk_eopts false false false ["group"; "having"; "order"; "limit"; "offset"; ";"] None false) ts.
Example lex_where_keeps_generator :
  parse_where_rest "col = 3 group by col"
  = Ok (NCond (NColumn "col") "=" (NInt 3), Some "group", ["by"; "col"]).
Proof. vm_compute. reflexivity. Qed.
Example lex_where_keeps_generator_null :
  parse_where_rest "col is null group by col"
  = Ok (NCond (NColumn "col") "is" NNull, Some "group", ["by"; "col"]).
Proof. vm_compute. reflexivity. Qed.
Example sql_boolean_condition :
  transform (NBoolC "and" (NCond (NColumn "col") "=" (NInt 1)) (NCond (NColumn "col2") "=" (NInt 4)))
  = Ok "col = 1 AND col2 = 4".
Proof. reflexivity. Qed.
Example sql_cast_function_call : transform (NCast (NColumn "date") "date") = Ok "CAST(date AS DATE)".
Proof. reflexivity. Qed.
