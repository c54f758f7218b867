(** Words for the cost of parsing, independent of the parser. *)
From Verif Require Import PyStr.
Local Open Scope str_scope.
Local Open Scope list_scope.

(** How deep the parentheses of a list of tokens are nested, when [depth] of them are open already. *)
Fixpoint nested_from (depth : nat) (ts : list str) : nat :=
  match ts with
  | [] => 0
  | t :: r =>
    if str_eqb t "(" then Nat.max (S depth) (nested_from (S depth) r)
    else if str_eqb t ")" then nested_from (Nat.pred depth) r
    else nested_from depth r
  end.
Definition paren_depth (ts : list str) : nat := nested_from 0 ts.

(** A query in [n] queries, the innermost one rejected: [GROUP] without [BY]. *)
Fixpoint rejected (n : nat) : str :=
  match n with
  | O => "select a group x"
  | S n => "select a from (" ++ rejected n ++ ")"
  end.

(** A query in [n] queries, none of which is rejected. *)
Fixpoint accepted_in (n : nat) : str :=
  match n with
  | O => "select a from t"
  | S n => "select a from (" ++ accepted_in n ++ "), b group x"
  end.
Definition accepted (n : nat) : str := "select a from (" ++ accepted_in n ++ ")".
