(** C25, C26: the query object returned by sqlvalidator.parse. *)
From Verif Require Import PyStr Validate Api SpecApi ProofApi.
Local Open Scope str_scope.
Local Open Scope list_scope.

(** C26.  After any history of calls on [parse(sql)], format() gives what format_sql(sql) gives. *)
Theorem C26_format_history_independent : forall sql h,
  fst (step CFormat (snd (run h (new_query sql)))) = AFormat (format_sql sql).
Proof. exact format_history. Qed.
Print Assumptions C26_format_history_independent.
Example C26_example :
  fst (run [CFormat; CIsValid (fun x => x); CFormat] (new_query "select a from t where 1"))
  = [AFormat (Ok "SELECT a
FROM t
WHERE 1"); AIsValid (Ok false); AFormat (Ok "SELECT a
FROM t
WHERE 1")].
Proof. vm_compute. reflexivity. Qed.

(** C25.  Once is_valid() has returned [b], after any further history it returns [b] again, and
    the attribute [errors] is the same, empty exactly for [b = True]. *)
Theorem C25_is_valid_stable : forall sql h ord b q1,
  q_is_valid ord (snd (run h (new_query sql))) = (Ok b, q1) ->
  forall h' ord', let q2 := snd (run h' q1) in
    fst (q_is_valid ord' q2) = Ok b /\ q_errors q2 = q_errors q1
    /\ (b = true <-> q_errors q1 = []).
Proof. exact is_valid_stable. Qed.
Print Assumptions C25_is_valid_stable.
Example C25_example :
  let r := q_is_valid (fun x => x) (snd (run [CFormat] (new_query "select a from t where 1"))) in
  fst r = Ok false /\ q_errors (snd r) = ["The argument of WHERE must be type boolean, not type int"].
Proof. vm_compute. auto. Qed.

(** The case the first theorem leaves out: if the first is_valid() raised, every later one
    answers True, whatever the query. *)
Theorem C25_after_exception_answers_true : forall sql ord e q1,
  q_is_valid ord (new_query sql) = (Err e, q1) ->
  forall h ord', fst (q_is_valid ord' (snd (run h q1))) = Ok true.
Proof. exact is_valid_after_raise. Qed.
Print Assumptions C25_after_exception_answers_true.
Example C25_after_exception_example :
  fst (q_is_valid (fun x => x) (new_query "with a as (select 1) select b from a where 1"))
  = Err PyStr.TypeError.
Proof. vm_compute. reflexivity. Qed.
