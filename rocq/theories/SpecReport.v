(** Which names of a statement are looked up, in which scope, and when a name must be reported.  The scopes are
    those of [SpecScope]. *)
From Verif Require Import PyStr Ast AstLib SpecVal SpecScope.
Local Open Scope str_scope.
Local Open Scope list_scope.

(** Nothing in the scope is called [v], and nothing is a star without an alias. *)
Definition missing (v : str) (S : scope) : Prop :=
  v <> "*" /\ forall o w, In (o, w) S -> w <> v /\ (o = None -> w <> "*").
(** Two aliases have a column [v], and no column without alias is called [v] or is a star. *)
Definition ambiguous (v : str) (S : scope) : Prop :=
  v <> "*" /\ (forall w, In (None, w) S -> w <> v /\ w <> "*")
  /\ exists a b, a <> b /\ In (Some a, v) S /\ In (Some b, v) S.

(** The parts of an expression in which names are looked up.  Missing here: the operands of arithmetic, bitwise
    operators and NOT, CASE, arrays, indexes, EXCEPT, date parts, CAST, joins, set operations. *)
Inductive part (a : node) : node -> Prop :=
| pt_fun : forall f args, In a args -> part a (NFun f args)
| pt_count : forall d args, In a args -> part a (NCount args d)
| pt_paren : forall args, In a args -> part a (NParen args)
| pt_alias : forall x w, part a (NAlias a x w)
| pt_array_agg : forall d i r o l, part a (NArrayAgg a d i r o l)
| pt_filter_f : forall c, part a (NFiltered a c)
| pt_filter_c : forall f, part a (NFiltered f a)
| pt_over_f : forall p o fr, part a (NAnalytics a p o fr)
| pt_over_p : forall f p o fr, In a p -> part a (NAnalytics f (Some p) o fr)
| pt_over_o : forall f p o fr asc desc, In (NOrderItem a asc desc) o -> (forall z, ~ wraps a (NInt z)) ->
    part a (NAnalytics f p (Some o) fr)
| pt_cond_l : forall p r, part a (NCond a p r)
| pt_cond_r : forall e p, lower p <> "between" -> part a (NCond e p a)
| pt_between_l : forall e p ty y, lower p = "between" -> part a (NCond e p (NBoolC ty a y))
| pt_between_r : forall e p ty x, lower p = "between" -> part a (NCond e p (NBoolC ty x a))
| pt_bool_l : forall t r, part a (NBoolC t a r)
| pt_bool_r : forall t l, part a (NBoolC t l a)
| pt_replace : forall e args x w, In (NAlias x (inr a) w) args -> part a (NReplace e args).

(** [seen x S' S n]: when [n] is looked at with the scope [S], [x] is looked at with the scope [S']. *)
Inductive seen (x : node) (S' : scope) : scope -> node -> Prop :=
| sn_here : seen x S' S' x
| sn_part : forall S a n, part a n -> seen x S' S a -> seen x S' S n
| sn_alone : forall S e n, validated_in e n -> from_of n = None -> seen x S' S e -> seen x S' S n
| sn_query : forall S Sf f e n, validated_in e n -> from_of n = Some f -> provides f Sf -> seen x S' (S ++ Sf) e -> seen x S' S n
| sn_from : forall S f n, from_of n = Some f -> seen x S' [] f -> seen x S' S n.
