(** C48: how often the formatter turns a node into text.  Definitions: Cost, SpecCost. *)
From Verif Require Import PyStr Ast AstLib Parser Render Api Grammar Cost CostLib SpecCost ProofCost ProofCost2.
Local Open Scope str_scope.
Local Open Scope list_scope.

(** The printer that counts prints the same text. *)
Theorem C48_same_text : forall n, fst (crender Tr n) = transform n.
Proof. exact same_text. Qed.
Print Assumptions C48_same_text.

(** C48.  Every tree: at most two calls per node and level of nested AND/OR and parentheses. *)
Theorem C48_bound : forall n, calls n <= size n * 2 ^ nesting n.
Proof. exact tree_bound. Qed.
Print Assumptions C48_bound.
Definition long_query : str := "select a from t where aaaaaaaaaaaaaaaaaaaaaaaaaaaaaaaaaaaaaaaa = 1 and (b = 2 or c = 3) and bbbbbbbbbbbbbbbbbbbbbbbbbbbbbbbbbbbbbbbbbbbbbbbbb = 4".
Definition long_tree : node := match parse_sql long_query with Ok n => n | Err _ => NNull end.
Example C48_bound_example : parse_sql long_query = Ok long_tree /\ size long_tree = 20 /\ nesting long_tree = 4 /\ calls long_tree = 46.
Proof. vm_compute. auto. Qed.

(** Conditions that fit in a line: each node once. *)
Theorem C48_short : forall n, brief n -> calls n <= size n.
Proof. exact brief_linear. Qed.
Print Assumptions C48_short.
Definition short_query : str := "with w as (select a from (select b from u) s) select case when a = 1 and (b = 2 or c = 3) then 'x' else coalesce(b, 2) end as z from w left join t on (w.i = t.i) where a > 1 or not (b in (select x from y)) and d = 1 group by a, b order by a desc".
Definition short_tree : node := match parse_sql short_query with Ok n => n | Err _ => NNull end.
Example C48_short_example : parse_sql short_query = Ok short_tree /\ statement short_tree = true /\ brief short_tree
  /\ size short_tree = 63 /\ calls short_tree = 63.
Proof.
  split; [vm_compute; reflexivity|]. split; [vm_compute; reflexivity|]. split; [|vm_compute; auto].
  apply (brief_check 40). vm_compute. reflexivity.
Qed.

(** Without the proviso the number of calls is exponential in the length of the query: with every AND the
    calls double. *)
Theorem C48_exponential : forall k, exists q n,
  length q = 107 + 10 * k /\ parse_sql q = Ok n /\ statement n = true /\ 2 ^ k <= calls n.
Proof. exact exponential. Qed.
Print Assumptions C48_exponential.
Theorem C48_polynomial_refuted : ~ exists c d, forall q n, parse_sql q = Ok n -> calls n <= c * length q ^ d.
Proof. exact no_polynomial. Qed.
Print Assumptions C48_polynomial_refuted.
Definition calls_of (q : str) : nat := match parse_sql q with Ok n => calls n | Err _ => 0 end.
Example C48_exponential_example :
  map calls_of [big_q 0; big_q 1; big_q 2; big_q 3; big_q 4; big_q 5] = [39; 241; 485; 973; 1949; 3901].
Proof. vm_compute. reflexivity. Qed.
