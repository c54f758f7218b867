(** Properties of the parser: termination and the first keyword of a statement. *)
From Verif Require Import PyStr Lib Tokeniser Ast Parser Render Api ProofParse.
Local Open Scope str_scope.
Local Open Scope list_scope.

(** C07: the recursion of the parser is bounded by the number of tokens.  Any
    allowance above [2 * length ts + 2] gives the same answer, and it is never
    the answer [OutOfFuel] that stands for running out of it. *)
Theorem C07_parser_terminates : forall ts eos n, eos <> Some OutOfFuel -> 2 * length ts + 2 <= n ->
  p_stmt (parsers n) eos ts = p_stmt (parsers (2 * length ts + 2)) eos ts
  /\ p_stmt (parsers n) eos ts <> Err OutOfFuel.
Proof. exact parse_terminates. Qed.
Print Assumptions C07_parser_terminates.
Example C07_parser_terminates_case :
  let ts := ["select"; "f"; "("; "("; "("; "a"; ")"; ")"; ")"; "from"; "t"] in
  (exists n, p_stmt (parsers (2 * length ts + 2)) None ts = Ok n) /\ p_stmt (parsers 3) None ts = Err OutOfFuel.
Proof. split; [eexists|]; vm_compute; reflexivity. Qed.

Theorem C07_format_terminates : forall s, parse_sql s <> Err OutOfFuel /\ format_sql s <> Err OutOfFuel.
Proof. exact format_terminates. Qed.
Print Assumptions C07_format_terminates.
Example C07_format_terminates_case : format_sql "select ((((a" = Ok "SELECT ((((a))))"
  /\ format_sql "select [" = Err AssertionError.
Proof. split; vm_compute; reflexivity. Qed.

(** C08: a text whose first token is neither SELECT nor WITH is rejected, with
    the exception of the parser by [format_sql] and with exactly one recorded
    error, the empty message, by [is_valid]. *)
Theorem C08_other_statement : forall s t ts eos, to_tokens s = (t :: ts, eos) -> ~ In (lower t) ["select"; "with"] ->
  format_sql s = Err (ParsingError [])
  /\ forall ord, fst (q_is_valid ord (new_query s)) = Ok false
       /\ q_errors (snd (q_is_valid ord (new_query s))) = [[]].
Proof. exact other_statement. Qed.
Print Assumptions C08_other_statement.
Example C08_other_statement_case : to_tokens "delete from t" = (["delete"; "from"; "t"], None)
  /\ ~ In (lower "delete") ["select"; "with"].
Proof. split; [vm_compute; reflexivity|]. vm_compute. intros [H|[H|[]]]; discriminate. Qed.

(** C08: conversely what is formatted starts with one of the two words, and the
    formatted text starts with the same word in capitals. *)
Theorem C08_formatted_statement : forall s out, format_sql s = Ok out ->
  exists t ts eos, to_tokens s = (t :: ts, eos)
  /\ (lower t = "select" /\ (exists r, out = "SELECT" ++ r) \/ lower t = "with" /\ (exists r, out = "WITH " ++ r)).
Proof. exact formatted_statement. Qed.
Print Assumptions C08_formatted_statement.
Example C08_formatted_statement_case :
  format_sql "with x as (select 1) Select a from x" = Ok "WITH x AS (
 SELECT 1
)
SELECT a
FROM x".
Proof. vm_compute. reflexivity. Qed.
