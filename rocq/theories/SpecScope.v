(** Which columns a FROM clause provides, and which statements read only provided columns.  Written
    without reference to the validator. *)
From Verif Require Import PyStr Ast AstLib Grammar SpecVal SpecAnswer.
Local Open Scope str_scope.
Local Open Scope list_scope.

(** Columns in scope, with the alias they belong to, if any *)
Definition scope := list (option str * str).
Definition plain (v : str) : Prop := has 46 v = false.
Definition is_qualified (v : str) (x : option str * str) : bool :=
  match fst x with Some _ => str_eqb (snd x) v | None => false end.

(** The name [v] is in scope: by itself, by a star, or under exactly one alias. *)
Definition found (v : str) (S : scope) : Prop :=
  v = "*" \/ In (None, v) S \/ In (None, "*") S \/ exists a, filter (is_qualified v) S = [(Some a, v)].
(** The name [a.v] is in scope. *)
Definition found_in (a v : str) (S : scope) : Prop :=
  In (Some a, v) S \/ In (Some a, "*") S \/ In (None, "*") S.

(** The names an item of a select list gives to the columns of the query; the type of a renamed
    expression must not be that of a query *)
Inductive gives : node -> list str -> Prop :=
| gv_column : forall v, plain v -> gives (NColumn v) [v]
| gv_alias : forall e a w, plain a -> (forall x, leads e x -> is_sel x = false) -> gives (NAlias e (inl a) w) [a]
| gv_alias_as : forall e a w, plain a -> (forall x, leads e x -> is_sel x = false) -> gives (NAlias e (inr (NColumn a)) w) [a]
| gv_none : forall e, is_column e = false -> (forall x a w, e <> NAlias x a w) -> gives e [].

(** A star stands for the columns of the subquery in FROM, if they are known. *)
Definition star_names (names : list str) (S : scope) : scope :=
  if mem "*" names && negb (existsb (fun x => match fst x with None => str_eqb (snd x) "*" | Some _ => false end) S)
  then map (pair None) (filter (fun v => negb (str_eqb v "*")) names) ++ S
  else map (pair None) names.

(** The columns a FROM item (or a query) provides *)
Inductive provides : node -> scope -> Prop :=
| pv_table : forall v b, provides (NTable v b) [(None, "*")]
| pv_query : forall es names a d don f w g h o l off semi, Forall2 gives es names ->
    (forall args, f <> Some (NParen args)) ->
    provides (NSelect es a d don f w g h o l off semi) (map (pair None) (concat names))
| pv_query_item : forall es names a d don s r w g h o l off semi, Forall2 gives es names -> is_sel s = false ->
    provides (NSelect es a d don (Some (NParen (s :: r))) w g h o l off semi) (map (pair None) (concat names))
| pv_query_sub : forall es names a d don s r w g h o l off semi S, Forall2 gives es names -> is_sel s = true -> provides s S ->
    provides (NSelect es a d don (Some (NParen (s :: r))) w g h o l off semi) (star_names (concat names) S)
| pv_paren : forall s r S, provides s S -> provides (NParen (s :: r)) S
| pv_alias : forall e a w S, provides e S -> plain a -> (forall x, In x S -> fst x = None) ->
    provides (NAlias e (inl a) w) (map (fun x => (Some a, snd x)) S)
| pv_join : forall ty l r on_ using_ S S', provides l S -> provides r S' -> provides (NJoin ty l r on_ using_) (S ++ S').

(** [sound S n]: [n] reads only columns in scope, where the columns [S] are visible from outside. *)
Inductive sound : scope -> node -> Prop :=
| so_column : forall S v, found v S -> sound S (NColumn v)
| so_dotted : forall S a v, found_in a v S -> ~ In a COLUMN_KEYWORDS -> ~ In v COLUMN_KEYWORDS -> sound S (NChained (NColumn a) (NColumn v))
| so_alias : forall S e a w, sound S e -> sound S (NAlias e a w)
| so_replace : forall S e args, sound S e -> (forall x a w, In (NAlias x a w) args -> sound S x) ->
    (forall x a w, In (NAlias x (inr a) w) args -> sound S a) ->
    sound S (NReplace e args)
| so_table : forall S v b, sound S (NTable v b)
| so_join : forall S ty l r on_ using_, sound S l -> sound S r -> sound S (NJoin ty l r on_ using_)
| so_parts : forall S n,
    match n with
    | NColumn _ | NChained _ _ | NAlias _ _ _ | NReplace _ _ | NTable _ _ | NJoin _ _ _ _ _ | NSelect _ _ _ _ _ _ _ _ _ _ _ _
    | NUnnest _ _ _ _ | NWith _ _ => False
    | _ => True
    end -> (forall c, In c (children n) -> sound S c) -> sound S n
| so_query : forall S Sf exprs a d don f w group h o l off semi,
    (f = None -> Sf = []) -> (forall x, f = Some x -> provides x Sf) -> (forall x, f = Some x -> sound [] x) ->
    (forall e, In e exprs -> sound (S ++ Sf) e) ->
    (forall e, w = Some e -> sound (S ++ Sf) e) ->
    (forall args ru ea arg v, group = Some (args, ru, ea) -> In arg args ->
       (wraps arg (NColumn v) \/ exists q p, wraps arg (NString v q p)) ->
       found v (S ++ Sf) /\ v <> "*" \/ exists e w', In (NAlias e (inl v) w') exprs) ->
    (forall e, h = Some e -> sound (S ++ Sf) e) ->
    (forall items e asc desc, o = Some items -> In (NOrderItem e asc desc) items ->
       (forall z, ~ wraps e (NInt z)) -> sound (S ++ Sf) e) ->
    sound S (NSelect exprs a d don f w group h o l off semi).
