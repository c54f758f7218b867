(** When is_valid() answers: what must not occur in the statement. *)
From Verif Require Import PyStr Ast AstLib Validate Api SpecVal Grammar.
Local Open Scope str_scope.
Local Open Scope list_scope.

(** [leads e x]: [x] is what gives [e] its type: the first expression in parentheses, the
    expression under an alias, the last part of a dotted name. *)
Inductive leads : node -> node -> Prop :=
| leads_here : forall e, leads e e
| leads_paren : forall a r x, leads a x -> leads (NParen (a :: r)) x
| leads_alias : forall e a w x, leads e x -> leads (NAlias e a w) x
| leads_chained : forall l r x, leads r x -> leads (NChained l r) x.

(** [judged e s]: [e] is the argument of WHERE, HAVING, LIMIT or OFFSET of the query [s], or an operand
    of the condition [s]. *)
Inductive judged (e : node) : node -> Prop :=
| ju_where : forall exprs a d don f g h o l off s, judged e (NSelect exprs a d don f (Some e) g h o l off s)
| ju_having : forall exprs a d don f w g o l off s, judged e (NSelect exprs a d don f w g (Some e) o l off s)
| ju_limit : forall exprs a d don f w g h o b off s, judged e (NSelect exprs a d don f w g h o (Some (b, Some e)) off s)
| ju_offset : forall exprs a d don f w g h o l s, judged e (NSelect exprs a d don f w g h o l (Some e) s)
| ju_left : forall ty r, judged e (NBoolC ty e r)
| ju_right : forall ty l, judged e (NBoolC ty l e).

(** The query [s] groups by the bare name [v]. *)
Definition grouped (v : str) (s : node) : Prop :=
  exists exprs a d don f w args ru ea h o l off semi arg,
    s = NSelect exprs a d don f w (Some (args, ru, ea)) h o l off semi
    /\ In arg args /\ (wraps arg (NColumn v) \/ exists q p, wraps arg (NString v q p)).

(** [x] is a field of a FROM clause somewhere in [n]. *)
Definition some_field (x : field) (n : node) : Prop :=
  exists s f fs, occurs s n /\ from_of s = Some f /\ known_fields f = Ok fs /\ In x fs.

Record answerable (n : node) : Prop := {
  an_cast : forall e t, ~ occurs (NCast e t) n;
  an_empty : ~ occurs (NParen []) n;
  an_all : forall exprs a d don f w g h o b off semi,
    ~ occurs (NSelect exprs a d don f w g h o (Some (b, None)) off semi) n;
  (** no query stands where a truth value or a number is expected *)
  an_judged : forall e s x, occurs s n -> judged e s -> leads e x -> is_sel x = false;
  (** no position number in the ORDER BY of a window *)
  an_over : forall f p o fr e asc desc z,
    occurs (NAnalytics f p (Some o) fr) n -> In (NOrderItem e asc desc) o -> wraps e (NInt z) -> (z <= 0)%Z;
  (** no quoted alias inside a FROM clause *)
  an_alias : forall s f e w v q p, occurs s n -> from_of s = Some f -> ~ occurs (NAlias e (inr (NString v q p)) w) f;
  (** grouping by a bare name: at most one field of this name *)
  an_group : forall v s x y, occurs s n -> grouped v s -> some_field x n -> some_field y n ->
    unqualified (fst x) = v -> unqualified (fst y) = v -> x = y }.
