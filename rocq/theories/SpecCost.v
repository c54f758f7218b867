(** Vocabulary of the property about the number of calls the formatter makes ([Cost.calls]). *)
From Verif Require Import PyStr Ast AstLib Render.
Local Open Scope str_scope.
Local Open Scope list_scope.

Definition maxof (l : list nat) : nat := fold_right Nat.max 0 l.
(** How deep AND/OR conditions and parentheses are nested in one another.  The right operand of
    [a AND b AND c] is [b AND c], so a condition with k operands has depth k - 1 or more. *)
Fixpoint depth (k : nat) (n : node) : nat :=
  match k with
  | 0 => 0
  | S k => (match n with NBoolC _ _ _ | NParen _ => 1 | _ => 0 end) + maxof (map (depth k) (children n))
  end.
Definition nesting (n : node) : nat := depth (size n) n.
(** The conditions of a node that are printed after WHERE, HAVING, ON, USING and WHEN *)
Definition conditions (n : node) : list node :=
  match n with
  | NSelect _ _ _ _ _ w _ h _ _ _ _ => olist w ++ olist h
  | NJoin _ _ _ on_ using_ => olist on_ ++ olist using_
  | NCase _ ws _ => map fst ws
  | _ => []
  end.
(** Every AND/OR condition of the tree fits in a line of 88 characters, and no parenthesis that is the whole
    condition of a clause is printed over several lines. *)
Definition brief (n : node) : Prop := forall x, occurs x n ->
  (forall op l r tl tr, x = NBoolC op l r -> transform l = Ok tl -> transform r = Ok tr ->
     length (tl ++ " " ++ op ++ " " ++ tr) < 88)
  /\ (forall args t, In (NParen args) (conditions x) -> transform (NParen args) = Ok t -> ~ In 10%N t).
