(** Vocabulary of C69: which messages a statement deserves whose FROM clauses provide a scope each. *)
From Verif Require Import PyStr Ast AstLib Render SpecVal SpecScope SpecReport SpecNested SpecAnswer SpecStuck SpecTables SpecNamed SpecSays SpecLost.
Local Open Scope str_scope.
Local Open Scope list_scope.

(** [S'] is the scope of the clauses of [x], when [x] is looked at with the scope [S]. *)
Definition scope_of (x : node) (S S' : scope) : Prop :=
  match x with NSelect _ _ _ _ f _ _ _ _ _ _ _ => exists Sf, from_scope f Sf /\ S' = S ++ Sf | _ => S' = S end.
(** No condition of WHERE, HAVING, AND or OR is itself the name of something in its scope, like x in WHERE x. *)
Definition plain_tests (n : node) : Prop :=
  forall x S S' e who t, seen x S [] n -> tests e who x -> scope_of x S S' -> render Tr e = Ok t -> not_written t S'.
(** [speaks m x S]: [x], looked at with the scope [S], deserves the message [m]. *)
Inductive speaks : str -> node -> scope -> Prop :=
| sk_clause : forall m x S, clause_message m -> origin m x -> speaks m x S
| sk_test : forall who e x y t S, tests e who x -> leads e y -> value_type y t ->
    speaks ("The argument of " ++ who ++ " must be type boolean, not type " ++ t) x S
| sk_loses : forall m x S, loses m x S -> speaks m x S
| sk_ambiguous : forall v S, ambiguous v S -> speaks ("column """ ++ v ++ """ is ambiguous") (NColumn v) S.
