(** Vocabulary of C60: which parts of a statement validation looks at. *)
From Verif Require Import PyStr Ast AstLib SpecVal SpecScope SpecReport.
Local Open Scope str_scope.
Local Open Scope list_scope.

(** [looked x n]: [x] is [n], or is looked at in a part of it ([part]), in its select list, WHERE, HAVING or ORDER BY
    ([validated_in]), or in its FROM clause. *)
Inductive looked (x : node) : node -> Prop :=
| lk_here : looked x x
| lk_part : forall a n, part a n -> looked x a -> looked x n
| lk_clause : forall e n, validated_in e n -> looked x e -> looked x n
| lk_from : forall f n, from_of n = Some f -> looked x f -> looked x n.

(** [in_from x n]: [x] is [n] or stands in its FROM clause, in parentheses and with an alias perhaps, or in the
    FROM clause of such a query. *)
Inductive in_from (x : node) : node -> Prop :=
| if_here : in_from x x
| if_paren : forall a args, In a args -> in_from x a -> in_from x (NParen args)
| if_alias : forall e a w, in_from x e -> in_from x (NAlias e a w)
| if_from : forall f n, from_of n = Some f -> in_from x f -> in_from x n.

(** Messages about LIMIT, OFFSET, positions and joins *)
Inductive clause_message : str -> Prop :=
| cm_limit : clause_message "argument of LIMIT must not contain variables"
| cm_limit_neg : clause_message "LIMIT must not be negative"
| cm_offset : clause_message "argument of OFFSET must be integer"
| cm_offset_neg : clause_message "OFFSET must not be negative"
| cm_group : forall z, clause_message ("GROUP BY position " ++ str_of_Z z ++ " is not in select list")
| cm_order : forall z, clause_message ("ORDER BY position " ++ str_of_Z z ++ " is not in select list")
| cm_join : clause_message "Missing ON or USING for join".
