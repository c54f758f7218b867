(** Vocabulary of C24_exactly: what makes is_valid() raise. *)
From Verif Require Import PyStr Ast AstLib Validate SpecVal SpecScope SpecReport SpecNested Grammar SpecAnswer.
Local Open Scope str_scope.
Local Open Scope list_scope.

(** [stuck x]: validating [x] raises, whatever fields are known.  [wraps e (NParen [])]: [e] is (), or (()), ... *)
Inductive stuck : node -> Prop :=
| sk_cast : forall e t, stuck (NCast e t)
| sk_all : forall exprs a d don f w g h o b off s, stuck (NSelect exprs a d don f w g h o (Some (b, None)) off s)
| sk_limit : forall exprs a d don f w g h o b e off s, (wraps e (NParen []) \/ exists x, leads e x /\ is_sel x = true) ->
    stuck (NSelect exprs a d don f w g h o (Some (b, Some e)) off s)
| sk_offset : forall exprs a d don f w g h o l e s, (wraps e (NParen []) \/ exists x, leads e x /\ is_sel x = true) ->
    stuck (NSelect exprs a d don f w g h o l (Some e) s)
| sk_group : forall exprs a d don f w args ru ea h o l off s e, In e args -> wraps e (NParen []) ->
    stuck (NSelect exprs a d don f w (Some (args, ru, ea)) h o l off s)
| sk_order : forall exprs a d don f w g h items l off s e asc desc, In (NOrderItem e asc desc) items -> wraps e (NParen []) ->
    stuck (NSelect exprs a d don f w g h (Some items) l off s)
| sk_over : forall f p o fr e asc desc z, In (NOrderItem e asc desc) o -> wraps e (NInt z) -> (0 < z)%Z -> stuck (NAnalytics f p (Some o) fr)
| sk_over_empty : forall f p o fr e asc desc, In (NOrderItem e asc desc) o -> wraps e (NParen []) -> stuck (NAnalytics f p (Some o) fr).

(** [tested e s]: [e] is the condition of WHERE or HAVING of [s], or [s] is [e] AND / OR something. *)
Inductive tested (e : node) : node -> Prop :=
| te_where : forall exprs a d don f g h o l off s, tested e (NSelect exprs a d don f (Some e) g h o l off s)
| te_having : forall exprs a d don f w g o l off s, tested e (NSelect exprs a d don f w g (Some e) o l off s)
| te_left : forall ty r, tested e (NBoolC ty e r)
| te_right : forall ty l, tested e (NBoolC ty l e).

(** [x] is a field of a FROM clause that is looked at. *)
Definition looked_field (x : field) (n : node) : Prop :=
  exists s f fs, looked s n /\ from_of s = Some f /\ known_fields f = Ok fs /\ In x fs.

(** Three things that make the answer depend on the known fields do not occur in what is looked at: *)
Record settled_names (n : node) : Prop := {
  (** queries and () as conditions, *)
  sn_tested : forall e s x, looked s n -> tested e s -> leads e x -> is_sel x = false /\ x <> NParen [];
  (** quoted aliases and () in FROM, *)
  sn_alias : forall s f, looked s n -> from_of s = Some f ->
    ~ occurs (NParen []) f /\ forall e w v q p, ~ occurs (NAlias e (inr (NString v q p)) w) f;
  (** grouping by a bare name that several fields have. *)
  sn_group : forall v s x y, looked s n -> grouped v s -> looked_field x n -> looked_field y n ->
    unqualified (fst x) = v -> unqualified (fst y) = v -> x = y }.
