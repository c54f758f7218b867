(** C50: how often the parser calls itself.  Definitions: ParseCost, SpecParseCost. *)
From Verif Require Import PyStr Tokeniser Ast Parser Api ParseCost SpecParseCost ProofParseCost ProofParseCost3 ProofParseCost4 ProofParseCost5.
Local Open Scope str_scope.
Local Open Scope list_scope.

(** The parser that counts returns the same tree or error. *)
Theorem C50_same_result : forall eos ts, fst (cparse_stmt eos ts) = parse_stmt eos ts.
Proof. exact counted_result. Qed.
Print Assumptions C50_same_result.

(** C50.  Every list of tokens: linear in the tokens and the tokens that are parsed a second time. *)
Theorem C50_linear : forall eos ts, parser_calls eos ts <= 1 + 5 * (length ts + reparsed eos ts).
Proof. exact calls_linear. Qed.
Print Assumptions C50_linear.
Definition cost_query : str := "with w as (select a from (select b from u) s) select case when a = 1 and (b = 2 or c = 3) then 'x' else coalesce(b, 2) end as z from w left join (t) on (w.i = t.i) where a > 1 or not (b in (select x from y)) group by a, b order by a desc".
Definition cost_tokens : list str := fst (to_tokens cost_query).
Definition accepts (q : str) : bool := match parse_sql q with Ok _ => true | Err _ => false end.
Example C50_linear_example : accepts cost_query = true /\ length cost_tokens = 87 /\ reparsed None cost_tokens = 1
  /\ parser_calls None cost_tokens = 49.
Proof. vm_compute. repeat split. Qed.

(** Every list of tokens: exponential at most in how deep the parentheses are nested. *)
Theorem C50_nested : forall eos ts, parser_calls eos ts <= 1 + 5 * 2 ^ paren_depth ts * length ts.
Proof. exact calls_nested. Qed.
Print Assumptions C50_nested.
Example C50_nested_example : paren_depth cost_tokens = 2
  /\ paren_depth (fst (to_tokens "select a from t where b = 1")) = 0
  /\ parser_calls None (fst (to_tokens "select a from t where b = 1")) = 7.
Proof. vm_compute. repeat split. Qed.

(** It is exponential: for queries that are rejected, and for queries that are accepted. *)
Theorem C50_exponential : forall n,
  (exists q m, length q = 16 + 16 * n /\ parse_sql q = Err (ParsingError m)
     /\ 2 ^ n <= parser_calls (snd (to_tokens q)) (fst (to_tokens q)))
  /\ (exists q t, length q = 31 + 27 * n /\ parse_sql q = Ok t
     /\ 2 ^ n <= parser_calls (snd (to_tokens q)) (fst (to_tokens q))).
Proof. exact exponential_calls. Qed.
Print Assumptions C50_exponential.
Theorem C50_polynomial_refuted : ~ exists c d, forall q t, parse_sql q = Ok t ->
  parser_calls (snd (to_tokens q)) (fst (to_tokens q)) <= c * length q ^ d.
Proof. exact accepted_no_polynomial. Qed.
Print Assumptions C50_polynomial_refuted.
Theorem C50_rejected_refuted : ~ exists c d, forall q m, parse_sql q = Err (ParsingError m) ->
  parser_calls (snd (to_tokens q)) (fst (to_tokens q)) <= c * length q ^ d.
Proof. exact rejected_no_polynomial. Qed.
Print Assumptions C50_rejected_refuted.
Definition cost_of (q : str) : nat := parser_calls (snd (to_tokens q)) (fst (to_tokens q)).
Example C50_exponential_example :
  rejected 1 = "select a from (select a group x)"
  /\ map cost_of [rejected 0; rejected 1; rejected 2; rejected 3; rejected 4; rejected 5] = [3; 11; 27; 59; 123; 251]
  /\ accepted 1 = "select a from (select a from (select a from t), b group x)"
  /\ map cost_of [accepted 0; accepted 1; accepted 2; accepted 3; accepted 4] = [9; 27; 63; 135; 279].
Proof. vm_compute. repeat split. Qed.
