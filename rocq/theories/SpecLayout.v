(** Vocabulary of the layout properties: lines, indentation, one-line forms. *)
From Verif Require Import PyStr Ast AstLib Render.
Local Open Scope str_scope.
Local Open Scope list_scope.

(** The lines of a text *)
Definition lines (s : str) : list str := split 10 s.
Definition spaces (k : nat) : str := repeat 32%N k.
(** the lines of [u], each after [k] spaces, stand together in [t] *)
Definition block (k : nat) (u t : str) : Prop :=
  exists a b, lines t = a ++ map (app (spaces k)) (lines u) ++ b.

(** [nested m d n]: the query [m] stands between parentheses somewhere in [n], and [d] parentheses
    around queries surround it there, its own included.  Left out: a query that formats to one line
    and that is, in its parentheses, an operand of AND or OR. *)
Definition broken (m : node) : Prop := exists u, transform m = Ok u /\ In 10%N u.
Inductive nested (m : node) : nat -> node -> Prop :=
| nested_paren : forall args, In m args -> is_select m = true -> nested m 1 (NParen args)
| nested_with : forall name qs s, In (name, m) qs -> is_select m = true -> nested m 1 (NWith qs s)
| nested_in_paren : forall d c args, In c args -> is_select c = true -> nested m d c -> nested m (S d) (NParen args)
| nested_in_with : forall d name c qs s, In (name, c) qs -> is_select c = true -> nested m d c -> nested m (S d) (NWith qs s)
| nested_in : forall d c n, In c (children n) -> nested m d c ->
    match n with NBoolC _ _ _ => c = NParen [m] -> broken m | _ => True end -> nested m d n.

(** The operands of a chain of AND and OR, the operators between them *)
Fixpoint operands (c : node) : list node :=
  match c with NBoolC _ l r => operands l ++ operands r | _ => [c] end.
(** The condition on one line, from the texts of its operands *)
Fixpoint one_line (text : node -> str) (c : node) : str :=
  match c with
  | NBoolC op l r => one_line text l ++ " " ++ upper op ++ " " ++ one_line text r
  | _ => text c
  end.
(** One operand per line; the operator begins the line *)
Fixpoint line_each (text : node -> str) (c : node) : list str :=
  match c with
  | NBoolC op l r =>
    line_each text l
    ++ match line_each text r with x :: rest => (upper op ++ " " ++ x) :: rest | [] => [] end
  | _ => [text c]
  end.
