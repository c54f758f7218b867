(** Vocabulary of the validation properties. *)
From Verif Require Import PyStr Ast AstLib Render Validate Api.
From Coq Require Import Permutation.
Local Open Scope str_scope.
Local Open Scope list_scope.

(** A set iteration order: any permutation of the elements, chosen per set *)
Definition is_order (ord : fields -> fields) : Prop := forall s, Permutation (ord s) s.

(** The errors that is_valid() collects for a text *)
Definition errors_of (ord : fields -> fields) (sql : str) : R (list str) :=
  n <- parse_sql sql ;; validate_top ord n.

(** [wraps e x]: [e] is [x] under any number of parentheses; of several expressions in a
    parenthesis the first one counts. *)
Inductive wraps : node -> node -> Prop :=
| wraps_refl : forall x, wraps x x
| wraps_paren : forall a r x, wraps a x -> wraps (NParen (a :: r)) x.

(** Messages that accuse a name: unknown column, unknown alias, ambiguous column. *)
Inductive name_error : str -> Prop :=
| ne_missing : forall v, name_error ("The column " ++ v ++ " was not found")
| ne_alias : forall v a, name_error ("The column " ++ v ++ " was not found in alias " ++ a)
| ne_ambiguous : forall v, name_error ("column """ ++ v ++ """ is ambiguous")
| ne_group : forall v, name_error ("column """ ++ v ++ """ does not exist").

(** FROM clauses that name tables only: a table, or joins of tables *)
Inductive plain_from : node -> Prop :=
| pf_table : forall v b, plain_from (NTable v b)
| pf_join : forall ty l r on_ using_, plain_from l -> plain_from r ->
    plain_from (NJoin ty l r on_ using_).

(** The FROM clause of a SELECT *)
Definition from_of (n : node) : option node :=
  match n with NSelect _ _ _ _ f _ _ _ _ _ _ _ => f | _ => None end.

(** [reads v e]: column [v] is used in [e] directly, or as function argument, in parentheses, under
    an alias, on either side of a comparison, as a bound of BETWEEN, or in AND / OR. *)
Inductive reads (v : str) : node -> Prop :=
| rd_column : reads v (NColumn v)
| rd_fun : forall f args a, In a args -> reads v a -> reads v (NFun f args)
| rd_count : forall d args a, In a args -> reads v a -> reads v (NCount args d)
| rd_paren : forall args a, In a args -> reads v a -> reads v (NParen args)
| rd_alias : forall e a w, reads v e -> reads v (NAlias e a w)
| rd_array_agg : forall c d i r o l, reads v c -> reads v (NArrayAgg c d i r o l)
| rd_filter_f : forall f c, reads v f -> reads v (NFiltered f c)
| rd_filter_c : forall f c, reads v c -> reads v (NFiltered f c)
| rd_over_f : forall f p o fr, reads v f -> reads v (NAnalytics f p o fr)
| rd_over_p : forall f p o fr a, In a p -> reads v a -> reads v (NAnalytics f (Some p) o fr)
| rd_cond_l : forall e p r, reads v e -> reads v (NCond e p r)
| rd_cond_r : forall e p r, reads v r -> reads v (NCond e p r)
| rd_bool_l : forall t l r, reads v l -> reads v (NBoolC t l r)
| rd_bool_r : forall t l r, reads v r -> reads v (NBoolC t l r).

(** [outputs exprs names]: a select list of named columns and AS aliases, with the names it
    produces *)
Inductive output : node -> str -> Prop :=
| out_column : forall v, output (NColumn v) v
| out_alias : forall e a w, output (NAlias e (inl a) w) a
| out_alias_column : forall e a w, output (NAlias e (inr (NColumn a)) w) a.

(** The type an expression has by its form alone; [None]: unknown ("object"). *)
Inductive form_type : node -> ty -> Prop :=
| ft_string : forall v q p, form_type (NString v q p) TStr
| ft_int : forall z, form_type (NInt z) TInt
| ft_float : forall t, form_type (NFloat t) TFloat
| ft_null : form_type NNull TNone
| ft_bool : forall b, form_type (NBool b) TBool
| ft_arith : forall op l r, form_type (NArith op l r) TInt
| ft_cond : forall e p r, form_type (NCond e p r) TBool
| ft_and_or : forall t l r, form_type (NBoolC t l r) TBool
| ft_not : forall e, form_type (NNeg e) TBool
| ft_paren : forall a r t, form_type a t -> form_type (NParen (a :: r)) t
| ft_alias : forall e a w t, form_type e t -> form_type (NAlias e a w) t
| ft_chained : forall l r t, form_type r t -> form_type (NChained l r) t.

(** Position [z] in GROUP BY / ORDER BY for a select list of [n] expressions *)
Definition bad_position (n : nat) (z : Z) : bool := negb ((1 <=? z)%Z && (z <=? Z.of_nat n)%Z).

(** Where an expression is validated as a whole in a SELECT: select list, WHERE, HAVING, ORDER BY
    (unless it is a position number) *)
Inductive validated_in (e : node) : node -> Prop :=
| vi_list : forall exprs a d don f w g h o l off s, In e exprs ->
    validated_in e (NSelect exprs a d don f w g h o l off s)
| vi_where : forall exprs a d don f g h o l off s,
    validated_in e (NSelect exprs a d don f (Some e) g h o l off s)
| vi_having : forall exprs a d don f w g o l off s,
    validated_in e (NSelect exprs a d don f w g (Some e) o l off s)
| vi_order : forall exprs a d don f w g h items l off s asc desc,
    In (NOrderItem e asc desc) items -> (forall z, ~ wraps e (NInt z)) ->
    validated_in e (NSelect exprs a d don f w g h (Some items) l off s).

(** The statement has a subquery as FROM, whose select list produces [names]. *)
Definition from_subquery (n : node) (names : list str) : Prop :=
  exists subs a d don f w g h o l off s rest,
    from_of n = Some (NParen (NSelect subs a d don f w g h o l off s :: rest))
    /\ Forall2 output subs names.

(** [v] is none of [names], also not the part after the first dot of one *)
Definition not_among (v : str) (names : list str) : Prop :=
  forall x, In x names -> x <> v /\ unqualified x <> v.

(** One type per field name, over all FROM clauses inside a statement *)
Definition one_type_per_name (n : node) : Prop :=
  exists T : str -> option ty, forall s f fs x t,
    occurs s n -> from_of s = Some f -> known_fields f = Ok fs -> In (x, t) fs -> t = T x.

(** [K] holds the fields that the FROM clause makes known (none if it is missing or opaque). *)
Definition from_fields (from_ : option node) (K : fields) : Prop :=
  forall x, In x K <-> exists f fs, from_ = Some f /\ known_fields f = Ok fs /\ In x fs.

(** Every FROM clause inside [n] names tables only. *)
Definition froms_plain (n : node) : Prop :=
  forall s f, occurs s n -> from_of s = Some f -> plain_from f.

(** The type of [e] when the fields [K] are known: that of the field called like the text of [e],
    else what the form of [e] says, else unknown. *)
Definition names_none (K : fields) (e : node) : Prop :=
  K = [] \/ exists x, render Tr e = Ok x /\ forall t, ~ In (x, t) K.
Inductive typed (K : fields) (e : node) : ty -> Prop :=
| ty_field : forall x t, render Tr e = Ok x -> In (x, Some t) K -> typed K e t
| ty_form : forall t, names_none K e -> form_type e t -> typed K e t
| ty_unknown : names_none K e -> (forall t, ~ form_type e t) -> typed K e TObject.

(** What the clause [who] says about an argument of type [t] *)
Definition type_report (who : str) (t : ty) : list str :=
  match t with
  | TBool | TObject => []
  | _ => ["The argument of " ++ who ++ " must be type boolean, not type " ++ ty_name t]
  end.

(** [origin m s]: the part [s] of a statement deserves the message [m]. *)
Inductive origin : str -> node -> Prop :=
| or_missing : forall v, origin ("The column " ++ v ++ " was not found") (NColumn v)
| or_ambiguous : forall v, origin ("column """ ++ v ++ """ is ambiguous") (NColumn v)
| or_alias : forall l r a t, render Tr l = Ok a -> render Str r = Ok t ->
    origin ("The column " ++ t ++ " was not found in alias " ++ a) (NChained l r)
| or_where : forall exprs a d don f e g h o l off s m t K, In m (type_report "WHERE" t) ->
    typed K e t ->
    origin m (NSelect exprs a d don f (Some e) g h o l off s)
| or_having : forall exprs a d don f w g e o l off s m t K, In m (type_report "HAVING" t) ->
    typed K e t ->
    origin m (NSelect exprs a d don f w g (Some e) o l off s)
| or_and_or : forall ty l r m t K e, In m (type_report (upper ty) t) -> typed K e t ->
    e = l \/ e = r -> origin m (NBoolC ty l r)
| or_group_position : forall exprs a d don f w args ru ea h o l off s arg z, In arg args ->
    wraps arg (NInt z) -> bad_position (length exprs) z = true ->
    origin ("GROUP BY position " ++ str_of_Z z ++ " is not in select list")
      (NSelect exprs a d don f w (Some (args, ru, ea)) h o l off s)
| or_group_name : forall exprs a d don f w args ru ea h o l off s arg v, In arg args ->
    (wraps arg (NColumn v) \/ exists q p, wraps arg (NString v q p)) ->
    origin ("column """ ++ v ++ """ does not exist")
      (NSelect exprs a d don f w (Some (args, ru, ea)) h o l off s)
| or_order_position : forall exprs a d don f w g h items l off s e asc desc z,
    In (NOrderItem e asc desc) items -> wraps e (NInt z) -> bad_position (length exprs) z = true ->
    origin ("ORDER BY position " ++ str_of_Z z ++ " is not in select list")
      (NSelect exprs a d don f w g h (Some items) l off s)
| or_over_position : forall f p items fr e asc desc z,
    In (NOrderItem e asc desc) items -> wraps e (NInt z) -> (z <= 0)%Z ->
    origin ("ORDER BY position " ++ str_of_Z z ++ " is not in select list")
      (NAnalytics f p (Some items) fr)
| or_limit : forall exprs a d don f w g h o b e off s, (forall z, ~ wraps e (NInt z)) ->
    origin "argument of LIMIT must not contain variables"
      (NSelect exprs a d don f w g h o (Some (b, Some e)) off s)
| or_limit_neg : forall exprs a d don f w g h o b e off s z, wraps e (NInt z) -> (z < 0)%Z ->
    origin "LIMIT must not be negative"
      (NSelect exprs a d don f w g h o (Some (b, Some e)) off s)
| or_offset : forall exprs a d don f w g h o l e s, (forall z, ~ wraps e (NInt z)) ->
    origin "argument of OFFSET must be integer"
      (NSelect exprs a d don f w g h o l (Some e) s)
| or_offset_neg : forall exprs a d don f w g h o l e s z, wraps e (NInt z) -> (z < 0)%Z ->
    origin "OFFSET must not be negative" (NSelect exprs a d don f w g h o l (Some e) s)
| or_join : forall ty l r, ty <> "CROSS JOIN" -> ty <> "," ->
    origin "Missing ON or USING for join" (NJoin ty l r None None).
