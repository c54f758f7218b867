(** Vocabulary of C67: which messages a query on tables, with and without aliases, deserves. *)
From Verif Require Import PyStr Tokeniser Ast AstLib Parser Render Validate Api PyTokens FileHandler Grammar SpecVal SpecScope SpecReport SpecNested SpecAnswer SpecStuck SpecTables SpecNamed SpecFile SpecFailed.
Local Open Scope str_scope.
Local Open Scope list_scope.

(** [tests who e x]: [e] is used as a condition in [x], by WHERE, HAVING, AND or OR. *)
Inductive tests (e : node) : str -> node -> Prop :=
| ts_where : forall exprs a d don f g h o l off s, tests e "WHERE" (NSelect exprs a d don f (Some e) g h o l off s)
| ts_having : forall exprs a d don f w g o l off s, tests e "HAVING" (NSelect exprs a d don f w g (Some e) o l off s)
| ts_left : forall ty r, tests e (upper ty) (NBoolC ty e r)
| ts_right : forall ty l, tests e (upper ty) (NBoolC ty l e).

(** The Python type that messages name for a value *)
Inductive value_type : node -> str -> Prop :=
| vt_string : forall v q p, value_type (NString v q p) "str"
| vt_int : forall z, value_type (NInt z) "int"
| vt_float : forall t, value_type (NFloat t) "float"
| vt_null : value_type NNull "NoneType"
| vt_arith : forall op l r, value_type (NArith op l r) "int".

(** [says m x S]: [x], looked at with the scope [S], deserves the message [m]. *)
Inductive says : str -> node -> scope -> Prop :=
| sy_clause : forall m x S, clause_message m -> origin m x -> says m x S
| sy_test : forall who e x y t S, tests e who x -> leads e y -> value_type y t ->
    says ("The argument of " ++ who ++ " must be type boolean, not type " ++ t) x S
| sy_column : forall v S, v <> "*" -> ~ open_scope S -> says ("The column " ++ v ++ " was not found") (NColumn v) S
| sy_dotted : forall l r a t S, (forall b, has_table b S -> l <> NColumn b) -> ~ open_scope S -> render Tr l = Ok a -> render Str r = Ok t ->
    says ("The column " ++ t ++ " was not found in alias " ++ a) (NChained l r) S
| sy_group : forall v S Sf exprs a d don f w g h o l off s, grouped v (NSelect exprs a d don f w g h o l off s) ->
    from_scope f Sf -> ~ open_scope (S ++ Sf) -> (forall e w', ~ In (NAlias e (inl v) w') exprs) ->
    says ("column """ ++ v ++ """ does not exist") (NSelect exprs a d don f w g h o l off s) S.

(** The messages [ms] are exactly those that the query in the token deserves. *)
Definition deserves (t : pytok) (ms : list str) : Prop :=
  forall m, In m ms <-> exists n x S, holds t n /\ seen x S [] n /\ says m x S.
