(** C17 - C23, C39: validation. *)
From Verif Require Import PyStr Ast AstLib Render Validate Api SpecVal ProofVal ProofVal2.
Local Open Scope str_scope.
Local Open Scope list_scope.

(** C17.  A statement whose FROM clauses name only tables (single or joined) never gets a message
    accusing a name, whatever else it contains. *)
Theorem C17_schemaless : forall ord n f es m,
  froms_plain n -> from_of n = Some f -> validate_top ord n = Ok es -> In m es -> ~ name_error m.
Proof. exact schemaless. Qed.
Print Assumptions C17_schemaless.
Example C17_example :
  errors_of (fun x => x) "select a, t.b, f(c) from t join s on t.x = s.y where d = 1 and e group by g order by h limit z"
  = Ok ["argument of LIMIT must not contain variables"].
Proof. vm_compute. reflexivity. Qed.

(** C18.  FROM is a subquery whose select list produces the names [names]; the column [v] is not
    among them.  Wherever [v] is read in the select list, WHERE, HAVING or ORDER BY - directly, as a function
    argument, in parentheses, under an alias, in a comparison, BETWEEN, AND / OR - it is reported. *)
Theorem C18_missing_column_reported : forall ord n names e v es,
  from_subquery n names -> ~ In "*" names -> v <> "*" -> not_among v names ->
  validated_in e n -> reads v e -> validate_top ord n = Ok es ->
  In ("The column " ++ v ++ " was not found") es.
Proof. exact missing_reported. Qed.
Print Assumptions C18_missing_column_reported.
Theorem C18_missing_group_column_reported : forall ord n names v es exprs a d don f w args ru ea h o l off s arg,
  n = NSelect exprs a d don f w (Some (args, ru, ea)) h o l off s ->
  from_subquery n names -> ~ In "*" names -> v <> "*" -> not_among v names ->
  In arg args -> wraps arg (NColumn v) ->
  (forall e w', ~ In (NAlias e (inl v) w') exprs) ->
  validate_top ord n = Ok es -> In ("column """ ++ v ++ """ does not exist") es.
Proof. exact group_missing_reported. Qed.
Print Assumptions C18_missing_group_column_reported.
Example C18_example :
  errors_of (fun x => x)
    "select a, f(b, (c)) from (select x, 1 as y from t) where d = 1 and y between 1 and e group by (g) order by h"
  = Ok ["The column a was not found"; "The column b was not found"; "The column c was not found";
        "The column d was not found"; "The column e was not found"; "column ""g"" does not exist";
        "The column h was not found"].
Proof. vm_compute. reflexivity. Qed.
(** The unrestricted claim is false: below arithmetic, NOT, CASE, arrays and indexes nothing is
    reported. *)
Theorem C18_refuted :
  errors_of (fun x => x)
    "select a + b, not c, case when d then e else f end, [g], h[1] from (select x from t)" = Ok [].
Proof. vm_compute. reflexivity. Qed.
Print Assumptions C18_refuted.

(** C19.  Adding a LIMIT (OFFSET) argument [e] changes nothing else and adds no message exactly for a
    non-negative integer under parentheses, else one message. *)
Theorem C19_limit : forall ord exprs all dis don from_ where_ group having order e offset semi es es',
  validate_top ord (NSelect exprs all dis don from_ where_ group having order None offset semi) = Ok es ->
  validate_top ord (NSelect exprs all dis don from_ where_ group having order (Some (false, Some e)) offset semi) = Ok es' ->
  exists a b new, es = a ++ b /\ es' = a ++ new ++ b /\
  ((new = [] /\ exists z, wraps e (NInt z) /\ (0 <= z)%Z)
  \/ (new = ["LIMIT must not be negative"] /\ exists z, wraps e (NInt z) /\ (z < 0)%Z)
  \/ (new = ["argument of LIMIT must not contain variables"] /\ forall z, ~ wraps e (NInt z))).
Proof. exact limit_rule. Qed.
Print Assumptions C19_limit.
Theorem C19_offset : forall ord exprs all dis don from_ where_ group having order limit e semi es,
  validate_top ord (NSelect exprs all dis don from_ where_ group having order limit None semi) = Ok es ->
  forall es', validate_top ord (NSelect exprs all dis don from_ where_ group having order limit (Some e) semi) = Ok es' ->
  (es' = es /\ exists z, wraps e (NInt z) /\ (0 <= z)%Z)
  \/ (es' = es ++ ["OFFSET must not be negative"] /\ exists z, wraps e (NInt z) /\ (z < 0)%Z)
  \/ (es' = es ++ ["argument of OFFSET must be integer"] /\ forall z, ~ wraps e (NInt z)).
Proof. exact offset_rule. Qed.
Print Assumptions C19_offset.
Example C19_example :
  errors_of (fun x => x) "select a from t limit ((3)) offset (0)" = Ok []
  /\ errors_of (fun x => x) "select a from t limit -1 offset ((x))"
     = Ok ["LIMIT must not be negative"; "argument of OFFSET must be integer"].
Proof. vm_compute. auto. Qed.

(** C20.  With positions as arguments, exactly those outside 1 .. number of select expressions are
    reported, in order; nothing else changes. *)
Theorem C20_group_positions : forall ord exprs all dis don from_ where_ having order limit offset semi args zs rollup each es,
  validate_top ord (NSelect exprs all dis don from_ where_ None having order limit offset semi) = Ok es ->
  Forall2 (fun e z => wraps e (NInt z)) args zs ->
  exists a b, es = a ++ b /\
  validate_top ord (NSelect exprs all dis don from_ where_ (Some (args, rollup, each)) having order limit offset semi)
  = Ok (a ++ map (fun z => "GROUP BY position " ++ str_of_Z z ++ " is not in select list")
          (filter (bad_position (length exprs)) zs) ++ b).
Proof. exact group_rule. Qed.
Print Assumptions C20_group_positions.
Theorem C20_order_positions : forall ord exprs all dis don from_ where_ group having limit offset semi items zs es,
  validate_top ord (NSelect exprs all dis don from_ where_ group having None limit offset semi) = Ok es ->
  Forall2 (fun i z => exists e a d, i = NOrderItem e a d /\ wraps e (NInt z)) items zs ->
  exists a b, es = a ++ b /\
  validate_top ord (NSelect exprs all dis don from_ where_ group having (Some items) limit offset semi)
  = Ok (a ++ map (fun z => "ORDER BY position " ++ str_of_Z z ++ " is not in select list")
          (filter (bad_position (length exprs)) zs) ++ b).
Proof. exact order_rule. Qed.
Print Assumptions C20_order_positions.
(** Mixed with other arguments, a bad position is reported all the same. *)
Theorem C20_group_position_reported : forall ord exprs all dis don from_ where_ having order limit offset semi args rollup each es arg z,
  validate_top ord (NSelect exprs all dis don from_ where_ (Some (args, rollup, each)) having order limit offset semi) = Ok es ->
  In arg args -> wraps arg (NInt z) -> bad_position (length exprs) z = true ->
  In ("GROUP BY position " ++ str_of_Z z ++ " is not in select list") es.
Proof. exact group_reported. Qed.
Print Assumptions C20_group_position_reported.
Theorem C20_order_position_reported : forall ord exprs all dis don from_ where_ group having limit offset semi items es e asc desc z,
  validate_top ord (NSelect exprs all dis don from_ where_ group having (Some items) limit offset semi) = Ok es ->
  In (NOrderItem e asc desc) items -> wraps e (NInt z) -> bad_position (length exprs) z = true ->
  In ("ORDER BY position " ++ str_of_Z z ++ " is not in select list") es.
Proof. exact order_reported. Qed.
Print Assumptions C20_order_position_reported.
Example C20_example :
  errors_of (fun x => x) "select a, b from t group by 1, ((3)), 0, 2 order by 2, (4) desc, a"
  = Ok ["GROUP BY position 3 is not in select list"; "GROUP BY position 0 is not in select list";
        "ORDER BY position 4 is not in select list"].
Proof. vm_compute. reflexivity. Qed.

(** C21.  Adding WHERE [e] (HAVING [e]) inserts the messages of [e] itself and one message exactly when
    the type of [e] - that of the subquery's field of this name, else by its form, else unknown -
    is neither boolean nor unknown. *)
Theorem C21_where : forall ord exprs all dis don from_ e group having order limit offset semi es es',
  is_order ord ->
  validate_top ord (NSelect exprs all dis don from_ None group having order limit offset semi) = Ok es ->
  validate_top ord (NSelect exprs all dis don from_ (Some e) group having order limit offset semi) = Ok es' ->
  exists K t a b c, from_fields from_ K /\ typed K e t /\ validate ord K e = Ok c
    /\ es = a ++ b /\ es' = a ++ c ++ type_report "WHERE" t ++ b.
Proof. exact where_rule. Qed.
Print Assumptions C21_where.
Theorem C21_having : forall ord exprs all dis don from_ where_ group e order limit offset semi es es',
  is_order ord ->
  validate_top ord (NSelect exprs all dis don from_ where_ group None order limit offset semi) = Ok es ->
  validate_top ord (NSelect exprs all dis don from_ where_ group (Some e) order limit offset semi) = Ok es' ->
  exists K t a b c, from_fields from_ K /\ typed K e t /\ validate ord K e = Ok c
    /\ es = a ++ b /\ es' = a ++ c ++ type_report "HAVING" t ++ b.
Proof. exact having_rule. Qed.
Print Assumptions C21_having.
Example C21_example :
  errors_of (fun x => x) "select x from (select 1 as x, true as b, c from t) where x having b" =
    Ok ["The argument of WHERE must be type boolean, not type int"]
  /\ errors_of (fun x => x) "select x from (select 1 as x, true as b, c from t) where c having ('s')" =
    Ok ["The argument of HAVING must be type boolean, not type str"].
Proof. vm_compute. auto. Qed.

(** C22.  The message for a join, by its kind and clauses; *)
Theorem C22_join : forall ord known ty l r on_ using_,
  validate ord known (NJoin ty l r on_ using_)
  = Ok (if mem ty ["CROSS JOIN"; ","] then []
        else match on_, using_ with None, None => ["Missing ON or USING for join"] | _, _ => [] end).
Proof. exact join_errors. Qed.
Print Assumptions C22_join.
(** it is among the errors of the statement when the join is the FROM clause. *)
Theorem C22_from_join_reported : forall ord exprs all dis don ty l r on_ using_ where_ group having order limit offset semi es,
  validate_top ord (NSelect exprs all dis don (Some (NJoin ty l r on_ using_)) where_ group having order limit offset semi) = Ok es ->
  ty <> "CROSS JOIN" -> ty <> "," -> on_ = None -> using_ = None -> In "Missing ON or USING for join" es.
Proof. exact join_reported. Qed.
Print Assumptions C22_from_join_reported.
Example C22_example :
  errors_of (fun x => x) "select a from t left join s" = Ok ["Missing ON or USING for join"]
  /\ errors_of (fun x => x) "select a from t cross join s" = Ok []
  /\ errors_of (fun x => x) "select a from t join s using (x)" = Ok [].
Proof. vm_compute. auto. Qed.
(** For a join inside a join the message is not given: the claim is false of chained joins. *)
Theorem C22_nested_join_refuted :
  (exists n, parse_sql "select a from t join s join w on a = b" = Ok n
     /\ occurs (NJoin "JOIN" (NTable (NColumn "s") false) (NTable (NColumn "w") false) None None) n)
  /\ errors_of (fun x => x) "select a from t join s join w on a = b" = Ok [].
Proof. exact nested_join. Qed.
Print Assumptions C22_nested_join_refuted.

(** C23.  If no field name has two types, the errors are the same for any two orders in which
    Python may iterate over its sets. *)
Theorem C23_order_independent : forall o1 o2 n, is_order o1 -> is_order o2 -> one_type_per_name n ->
  validate_top o1 n = validate_top o2 n.
Proof. exact order_independent. Qed.
Print Assumptions C23_order_independent.
(** Without the proviso: two orders, two verdicts. *)
Theorem C23_refuted : exists o1 o2 sql, is_order o1 /\ is_order o2 /\
  errors_of o1 sql = Ok []
  /\ errors_of o2 sql = Ok ["The argument of WHERE must be type boolean, not type int"].
Proof. exact order_matters. Qed.
Print Assumptions C23_refuted.
Example C23_example : exists n,
  parse_sql "select * from (select true as x, 1 as y from t) where x and y" = Ok n
  /\ one_type_per_name n.
Proof. exact one_type_example. Qed.

(** C39.  Every error of a statement is about a part of the statement that deserves it. *)
Theorem C39_errors_have_an_origin : forall n ord es m, is_order ord ->
  validate_top ord n = Ok es -> In m es -> exists s, occurs s n /\ origin m s.
Proof. exact error_origin. Qed.
Print Assumptions C39_errors_have_an_origin.
Example C39_example :
  errors_of (fun x => x) "select a from (select x from (select y from t) where 1) limit b"
  = Ok ["The column a was not found"; "The column x was not found";
        "The argument of WHERE must be type boolean, not type int";
        "argument of LIMIT must not contain variables"].
Proof. vm_compute. reflexivity. Qed.
