(** C24: when is_valid() answers. *)
From Verif Require Import PyStr Ast AstLib Validate Api Grammar SpecVal SpecApi SpecAnswer ProofAnswer.
Local Open Scope str_scope.
Local Open Scope list_scope.

(** C24.  For a SELECT of the fragment without CAST, (), LIMIT ALL, queries as truth value or number,
    positions in the ORDER BY of a window, quoted aliases inside FROM, and grouping by a name that
    several fields have, is_valid() returns. *)
Theorem C24_is_valid_answers : forall q n ord, is_order ord -> parse_sql q = Ok n -> is_sel n = true ->
  statement n = true -> answerable n -> exists b, fst (q_is_valid ord (new_query q)) = Ok b.
Proof. exact is_valid_answers. Qed.
Print Assumptions C24_is_valid_answers.
Definition answer_query : str :=
  "select t.a, sum(b) over (partition by c order by d) x, (select max(y) from u) as m, case when a then 1 else 'b' end
   from (select a, b, 1 as c from (t) left join s on t.k = s.k) v where a in (select z from w where z) and not b = 1 or (c)
   group by a, 2 having count(*) between 1 and 3 order by 1, x desc limit (3) offset 2;".
Definition answer_tree : node := Eval vm_compute in match parse_sql answer_query with Ok n => n | Err _ => NNull end.
Example C24_example : parse_sql answer_query = Ok answer_tree /\ is_sel answer_tree = true /\ statement answer_tree = true /\ answerable answer_tree
  /\ fst (q_is_valid (fun s => s) (new_query answer_query)) = Ok false.
Proof.
  split; [vm_compute; reflexivity|]. split; [reflexivity|]. split; [vm_compute; reflexivity|]. split; [apply answerableb_ok; vm_compute; reflexivity|vm_compute; reflexivity].
Qed.
(** A text that the parser rejects with its own error is answered with False. *)
Theorem C24_rejected_is_invalid : forall q m ord, parse_sql q = Err (ParsingError m) -> fst (q_is_valid ord (new_query q)) = Ok false.
Proof. exact rejected_is_valid. Qed.
Print Assumptions C24_rejected_is_invalid.
Example C24_rejected_example : exists m, parse_sql "foo" = Err (ParsingError m).
Proof. eexists. vm_compute. reflexivity. Qed.
Definition answer (q : str) : R bool := fst (q_is_valid (fun s => s) (new_query q)).
(** Each restriction is needed. *)
Theorem C24_refuted :
  answer "with a as (select 1) select b from a" = Err TypeError
  /\ answer "select cast(a as int) from t" = Err AttributeError
  /\ answer "select a from t where ()" = Err AttributeError
  /\ answer "select a from t limit all" = Err AttributeError
  /\ answer "select a from t where (select true)" = Err AttributeError
  /\ answer "select a from t where b and (select true)" = Err AttributeError
  /\ answer "select a from t limit (select 1)" = Err AttributeError
  /\ answer "select sum(a) over (order by 1) from t" = Err TypeError
  /\ answer "select a from (select b 'x' from t)" = Err TypeError
  /\ answer "select a from (select a from t) x join (select a from t) y on b group by a" = Err AttributeError
  /\ answer " " = Err StopIteration.
Proof. vm_compute. repeat split. Qed.
Print Assumptions C24_refuted.
