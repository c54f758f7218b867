(** Histories of method calls on one query object. *)
From Verif Require Import PyStr Validate Api.
Local Open Scope list_scope.

(** A call: format(), or is_valid() with whatever set iteration order it meets *)
Inductive call := CFormat | CIsValid (ord : fields -> fields).
Inductive answer := AFormat (r : R str) | AIsValid (r : R bool).
Definition step (c : call) (q : query) : answer * query :=
  match c with
  | CFormat => let '(r, q) := q_format q in (AFormat r, q)
  | CIsValid ord => let '(r, q) := q_is_valid ord q in (AIsValid r, q)
  end.
Fixpoint run (h : list call) (q : query) : list answer * query :=
  match h with
  | [] => ([], q)
  | c :: h => let '(a, q) := step c q in let '(l, q) := run h q in (a :: l, q)
  end.
