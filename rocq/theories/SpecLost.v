(** Vocabulary of C68: which names are reported as not found, wherever the FROM clauses provide a scope. *)
From Verif Require Import PyStr Ast AstLib Render SpecVal SpecScope SpecReport SpecNested SpecAnswer SpecStuck SpecTables SpecNamed.
Local Open Scope str_scope.
Local Open Scope list_scope.

(** Messages that say that a name was not found *)
Inductive lost_message : str -> Prop :=
| lm_column : forall v, lost_message ("The column " ++ v ++ " was not found")
| lm_dotted : forall v a, lost_message ("The column " ++ v ++ " was not found in alias " ++ a)
| lm_group : forall v, lost_message ("column """ ++ v ++ """ does not exist").

(** How a query writes an entry of a scope: with its alias, if it has one *)
Definition in_full (x : option str * str) : str := match x with (Some a, v) => a ++ "." ++ v | (None, v) => v end.

(** No entry of the scope is written [v] with its alias; and neither is one without its alias. *)
Definition not_written (v : str) (S : scope) : Prop := forall x, In x S -> in_full x <> v.
Definition absent (v : str) (S : scope) : Prop := not_written v S /\ forall o, ~ In (o, v) S.

(** [loses m x S]: [x], looked at with the scope [S], uses a name that the scope does not have, and [m] says so. *)
Inductive loses : str -> node -> scope -> Prop :=
| ls_column : forall v S, v <> "*" -> ~ open_scope S -> absent v S -> loses ("The column " ++ v ++ " was not found") (NColumn v) S
| ls_dotted : forall l r a t u S, render Tr l = Ok a -> render Tr r = Ok t -> render Str r = Ok u -> ~ open_scope S ->
    not_written (a ++ "." ++ t) S -> not_written (a ++ ".*") S ->
    loses ("The column " ++ u ++ " was not found in alias " ++ a) (NChained l r) S
| ls_group : forall v S Sf exprs a d don f w g h o l off s, grouped v (NSelect exprs a d don f w g h o l off s) ->
    from_scope f Sf -> ~ open_scope (S ++ Sf) -> absent v (S ++ Sf) -> (forall e w', ~ In (NAlias e (inl v) w') exprs) ->
    loses ("column """ ++ v ++ """ does not exist") (NSelect exprs a d don f w g h o l off s) S.

(** Every FROM clause that is looked at provides a scope. *)
Definition provided (n : node) : Prop := forall s f, looked s n -> from_of s = Some f -> exists S, provides f S.

(** The scope has no entry for [v] twice: under one alias there is one column [v] at most. *)
Definition once (v : str) (S : scope) : Prop := forall A B o, S = A ++ (o, v) :: B -> ~ In (o, v) B.
