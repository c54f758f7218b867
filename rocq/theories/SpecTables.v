(** Vocabulary of C64: queries on tables, and what makes is_valid() raise or answer False for them. *)
From Verif Require Import PyStr Ast AstLib SpecVal SpecScope SpecReport SpecNested Grammar SpecAnswer SpecStuck.
Local Open Scope str_scope.
Local Open Scope list_scope.

(** [tables f]: [f] is a table, a join of such, or one of these in parentheses; nothing has an alias of its own.  (The
    parser keeps the alias of a bare table name, as in FROM t x, inside the table, so that is an [NTable] too.) *)
Inductive tables : node -> Prop :=
| tb_table : forall v b, tables (NTable v b)
| tb_paren : forall a, tables a -> tables (NParen [a])
| tb_join : forall ty l r on_ using_, tables l -> tables r -> tables (NJoin ty l r on_ using_).

(** The query [n] has a FROM clause, and every FROM clause that is looked at holds tables only. *)
Definition on_tables (n : node) : Prop :=
  (exists f, from_of n = Some f) /\ forall s f, looked s n -> from_of s = Some f -> tables f.

(** The query without its FROM clause *)
Definition without_from (n : node) : node :=
  match n with
  | NSelect exprs a d don _ w g h o l off s => NSelect exprs a d don None w g h o l off s
  | _ => n
  end.

(** Strings, numbers, NULL and arithmetic *)
Inductive value_like : node -> Prop :=
| vl_string : forall v q p, value_like (NString v q p)
| vl_int : forall z, value_like (NInt z)
| vl_float : forall t, value_like (NFloat t)
| vl_null : value_like NNull
| vl_arith : forall op l r, value_like (NArith op l r).

(** [halts x]: [x] is stuck, or a query or () is used as a condition in it. *)
Definition halts (x : node) : Prop :=
  stuck x \/ exists e y, tested e x /\ leads e y /\ (is_sel y = true \/ y = NParen []).

(** [faulty x]: something is wrong in [x] itself. *)
Inductive faulty : node -> Prop :=
| fl_test : forall e x y, tested e x -> leads e y -> value_like y -> faulty x
| fl_limit : forall exprs a d don f w g h o b e off s, (forall z, wraps e (NInt z) -> (z < 0)%Z) ->
    faulty (NSelect exprs a d don f w g h o (Some (b, Some e)) off s)
| fl_offset : forall exprs a d don f w g h o l e s, (forall z, wraps e (NInt z) -> (z < 0)%Z) ->
    faulty (NSelect exprs a d don f w g h o l (Some e) s)
| fl_group : forall exprs a d don f w args ru ea h o l off s e z, In e args -> wraps e (NInt z) ->
    (z < 1 \/ Z.of_nat (length exprs) < z)%Z -> faulty (NSelect exprs a d don f w (Some (args, ru, ea)) h o l off s)
| fl_order : forall exprs a d don f w g h items l off s e asc desc z, In (NOrderItem e asc desc) items -> wraps e (NInt z) ->
    (z < 1 \/ Z.of_nat (length exprs) < z)%Z -> faulty (NSelect exprs a d don f w g h (Some items) l off s)
| fl_over : forall f p items fr e asc desc z, In (NOrderItem e asc desc) items -> wraps e (NInt z) -> (z < 1)%Z ->
    faulty (NAnalytics f p (Some items) fr)
| fl_join : forall ty l r, ty <> "CROSS JOIN" -> ty <> "," -> faulty (NJoin ty l r None None).
