(** C60: what validation looks at.  Definitions: SpecNested, SpecReport ([part]), SpecVal ([origin], [validated_in]). *)
From Verif Require Import PyStr Ast AstLib Render Validate Api SpecVal SpecScope SpecReport SpecNested ProofNested.
Local Open Scope str_scope.
Local Open Scope list_scope.

(** C60.  A query in a FROM clause, at any depth: all its messages are messages of the statement, as if it stood alone. *)
Theorem C60_from : forall ord s n es, in_from s n -> is_select s = true -> validate_top ord n = Ok es ->
  exists es' a b, validate_top ord s = Ok es' /\ es = a ++ es' ++ b.
Proof. exact from_reported. Qed.
Print Assumptions C60_from.
(** C60.  The messages about LIMIT, OFFSET, positions and joins: exactly those deserved by a part that is looked at. *)
Theorem C60_clauses : forall ord n es m, is_order ord -> validate_top ord n = Ok es -> clause_message m ->
  (In m es <-> exists s, looked s n /\ origin m s).
Proof. exact looked_iff. Qed.
Print Assumptions C60_clauses.
(** C60.  Every message is about a part that is looked at. *)
Theorem C60_only : forall ord n es m, is_order ord -> validate_top ord n = Ok es -> In m es -> exists s, looked s n /\ origin m s.
Proof. exact looked_only. Qed.
Print Assumptions C60_only.

Definition inner : node := Eval vm_compute in match parse_sql "select b from (select c from u) limit d" with Ok n => n | Err _ => NNull end.
Definition outer : node := Eval vm_compute in
  match parse_sql "select a from ((select b from (select c from u) limit d) x) where a in (select e from v order by 2) offset -1" with Ok n => n | Err _ => NNull end.
Definition in_where : node := Eval vm_compute in match parse_sql "select e from v order by 2" with Ok n => n | Err _ => NNull end.
Example C60_example : in_from inner outer /\ looked in_where outer /\ origin "ORDER BY position 2 is not in select list" in_where
  /\ validate_top (fun s => s) inner = Ok ["The column b was not found"; "argument of LIMIT must not contain variables"]
  /\ validate_top (fun s => s) outer = Ok ["The column a was not found"; "The column b was not found"; "argument of LIMIT must not contain variables";
       "The column a was not found"; "ORDER BY position 2 is not in select list"; "OFFSET must not be negative"].
Proof.
  split; [|split; [|split; [|split; vm_compute; reflexivity]]].
  - unfold outer. eapply if_from; [reflexivity|]. repeat (first [apply if_here|eapply if_paren; [left; reflexivity|]|apply if_alias]).
  - unfold outer. eapply lk_clause; [apply vi_where|]. eapply lk_part; [apply pt_cond_r; discriminate|]. eapply lk_part; [apply pt_paren; left; reflexivity|]. apply lk_here.
  - unfold in_where. apply (or_order_position _ _ _ _ _ _ _ _ _ _ _ _ (NInt 2) false false 2%Z); [left; reflexivity|constructor|reflexivity].
Qed.

(** Queries that are not looked at: a side of a join, a part of a set operation, below NOT, CASE or arithmetic. *)
Theorem C60_everywhere_refuted :
  errors_of (fun s => s) "select b from (select c from u)" = Ok ["The column b was not found"]
  /\ errors_of (fun s => s) "select a from t join (select b from (select c from u)) s on t.a = s.b" = Ok []
  /\ errors_of (fun s => s) "select 1 from t union (select b from (select c from u))" = Ok []
  /\ errors_of (fun s => s) "select a from t where not (a in (select b from (select c from u)))" = Ok []
  /\ errors_of (fun s => s) "select case when a in (select b from (select c from u)) then 1 else 2 end from t" = Ok []
  /\ errors_of (fun s => s) "select 1 + (select b from (select c from u)) from t" = Ok [].
Proof. vm_compute. auto 10. Qed.
Print Assumptions C60_everywhere_refuted.
