(** C52: the exceptions a caller has to expect. *)
From Verif Require Import PyStr Tokeniser Ast AstLib Parser Render Validate Api SpecTok SpecRaise ProofRaise ProofRaise2.
Local Open Scope str_scope.
Local Open Scope list_scope.

(** C52.  When parsing a text raises, the exception is StopIteration, AssertionError, ValueError,
    IndexError, RecursionError or one of six ParsingErrors, and except for StopIteration the text
    contains one of the words that account for it. *)
Theorem C52_parse : forall q e, parse_sql q = Err e -> raises q e.
Proof. exact parse_raises. Qed.
Print Assumptions C52_parse.

(** Every one of them occurs. *)
Theorem C52_parse_reached :
  parse_sql "select" = Err StopIteration /\ parse_sql "select [" = Err AssertionError
  /\ parse_sql "select 'x', ""a 'y'" = Err ValueError /\ parse_sql "select array_agg(a limit b)" = Err ValueError
  /\ parse_sql "select 1.2.3" = Err ValueError /\ parse_sql "select a from t union" = Err IndexError
  /\ parse_sql "select a\,b" = Err RecursionError /\ parse_sql "update t" = Err (ParsingError "")
  /\ parse_sql "with a as (update t) select b" = Err (ParsingError "")
  /\ parse_sql "select a over b" = Err (ParsingError "expected '('")
  /\ parse_sql "select a between 1 or 2" = Err (ParsingError "expected AND")
  /\ parse_sql "select a over (partition b)" = Err (ParsingError "Missing BY after PARTITION")
  /\ parse_sql "select a order b" = Err (ParsingError "Missing BY after ORDER")
  /\ parse_sql "select a group b" = Err (ParsingError "Missing BY after GROUP").
Proof. repeat split; vm_compute; reflexivity. Qed.
Print Assumptions C52_parse_reached.

(** C52.  What formatting raises is raised by the parser, or the parsed query has a part that
    accounts for it. *)
Theorem C52_format : forall q e, format_sql q = Err e ->
  raises q e \/ exists n, parse_sql q = Ok n /\ fails n e.
Proof. exact format_raises. Qed.
Print Assumptions C52_format.
Example C52_format_example :
  format_sql "select a from t order by b and c" = Err AttributeError
  /\ format_sql "select a from t limit 10, 20" = Err AttributeError
  /\ format_sql "select a from t group by a, select f(b) filter (where c)" = Err AttributeError
  /\ format_sql "with a as (with b as (select 1) select 2) select 3" = Err TypeError
  /\ format_sql "select * except ()" = Err IndexError /\ format_sql "select * replace ()" = Err IndexError
  /\ format_sql "select a from t group by rollup" = Err IndexError.
Proof. repeat split; vm_compute; reflexivity. Qed.

(** C52.  Whatever happened to a query object before, what is_valid() raises is an AttributeError,
    TypeError or IndexError or is raised by the parser, and is never a ParsingError. *)
Theorem C52_is_valid : forall ord q e, fst (q_is_valid ord q) = Err e ->
  (In e [AttributeError; TypeError; IndexError] \/ raises (q_sql q) e) /\ forall m, e <> ParsingError m.
Proof. exact is_valid_raises. Qed.
Print Assumptions C52_is_valid.
Example C52_is_valid_example :
  fst (q_is_valid (fun s => s) (new_query "select a from t limit ()")) = Err IndexError
  /\ fst (q_is_valid (fun s => s) (new_query "select cast(a as int)")) = Err AttributeError
  /\ fst (q_is_valid (fun s => s) (new_query "with a as (select 1) select b from a")) = Err TypeError
  /\ fst (q_is_valid (fun s => s) (new_query "select 1.2.3")) = Err ValueError
  /\ fst (q_is_valid (fun s => s) (new_query "select a group b")) = Ok false.
Proof. repeat split; vm_compute; reflexivity. Qed.
