(** Vocabulary of C66: queries on tables with and without aliases, and which names they do not know. *)
From Verif Require Import PyStr Ast AstLib Grammar SpecVal SpecScope SpecReport SpecNested SpecAnswer SpecStuck SpecTables.
Local Open Scope str_scope.
Local Open Scope list_scope.

(** [f] is made of tables and joins, some with a bare word as alias.  The parser keeps the alias of a bare table name, as in
    FROM t x, inside the table: that is an [NTable], and counts as a table without alias.  An alias of its own ([NAlias])
    have tables in backquotes or brackets, and what stands in parentheses. *)
Inductive named_tables : node -> Prop :=
| nt_table : forall v b, named_tables (NTable v b)
| nt_alias : forall e a w, tables e -> ident a = true -> ~ In (lower a) COLUMN_KEYWORDS -> named_tables (NAlias e (inl a) w)
| nt_paren : forall a, named_tables a -> named_tables (NParen [a])
| nt_join : forall ty l r on_ using_, named_tables l -> named_tables r -> named_tables (NJoin ty l r on_ using_).

(** Every FROM clause that is looked at is of this form, and no name in GROUP BY has a star in it. *)
Definition on_named_tables (n : node) : Prop :=
  (forall s f, looked s n -> from_of s = Some f -> named_tables f)
  /\ forall s v, looked s n -> grouped v s -> ~ In 42%N v.

(** A table without alias is in scope; a table with the alias [a] is. *)
Definition open_scope (S : scope) : Prop := In (None, "*") S.
Definition has_table (a : str) (S : scope) : Prop := In (Some a, "*") S.

(** What the FROM clause, if any, provides *)
Definition from_scope (f : option node) (S : scope) : Prop :=
  match f with Some x => provides x S | None => S = [] end.

(** [unknown x S]: [x], looked at with the scope [S], uses a name that no table in scope can have. *)
Inductive unknown : node -> scope -> Prop :=
| un_column : forall v S, v <> "*" -> ~ open_scope S -> unknown (NColumn v) S
| un_dotted : forall l r S, (forall a, has_table a S -> l <> NColumn a) -> ~ open_scope S -> unknown (NChained l r) S
| un_group : forall v S Sf exprs a d don f w g h o l off s, grouped v (NSelect exprs a d don f w g h o l off s) ->
    from_scope f Sf -> ~ open_scope (S ++ Sf) -> (forall e w', ~ In (NAlias e (inl v) w') exprs) ->
    unknown (NSelect exprs a d don f w g h o l off s) S.
