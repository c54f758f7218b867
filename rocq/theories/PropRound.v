(** C09-C14: formatting a query of the fragment and reading it again.

    [statement n] (Grammar.v) says that the tree [n] belongs to the fragment; [entries n]
    (SpecRound.v) lists its words; [Forall2 reads (entries n) ts] says that the tokens [ts] are
    those words, keywords and function names in any case, integers with any leading zeros. *)
From Verif Require Import PyStr Ast Tokeniser Parser Render Api SpecTok Grammar SpecRound GramRound GramLits GramInt.
Local Open Scope str_scope.
Local Open Scope list_scope.

(** C12.  A query that parses into a statement of the fragment formats, and formatting the result
    again changes nothing. *)
Theorem C12_idempotent : forall q n, parse_sql q = Ok n -> statement n = true ->
  exists t, format_sql q = Ok t /\ format_sql t = Ok t.
Proof. exact idempotent. Qed.
Print Assumptions C12_idempotent.
Definition sample : str :=
  "Select A.b, count(distinct C) As n from T1 t inner join u using (id) where x Between 1 and 2 and nm like 'a%' group by b having count(*) > 1 order by n desc limit 010;".
Definition sample_tree : node := match parse_sql sample with Ok n => n | Err _ => NNull end.
Definition sample_out : str := "SELECT
 A.b,
 COUNT(DISTINCT C) AS n
FROM T1 t
INNER JOIN u
USING (id)
WHERE x BETWEEN 1 AND 2 AND nm LIKE 'a%'
GROUP BY b
HAVING COUNT(*) > 1
ORDER BY n DESC
LIMIT 10;".
Example C12_example : parse_sql sample = Ok sample_tree /\ statement sample_tree = true /\ format_sql sample = Ok sample_out.
Proof. vm_compute. auto. Qed.
(** Outside the fragment: a literal with a line break is indented once more each time, and a large
    float is printed with an exponent that is read as a sum. *)
Theorem C12_any_query_refuted :
  exists q t u, format_sql q = Ok t /\ format_sql t = Ok u /\ u <> t.
Proof.
  exists "select 1000000000000000000000.5", "SELECT 1e+21", "SELECT 1e + 21". vm_compute. repeat split; auto. discriminate.
Qed.
Print Assumptions C12_any_query_refuted.

(** C11.  The tokens of the formatted text are the words of the query, keywords and function names
    in upper case, everything else unchanged. *)
Theorem C11_tokens_kept : forall n q ts, statement n = true -> to_tokens q = (ts, None)
  -> Forall2 reads (entries n) ts
  -> exists t, format_sql q = Ok t /\ to_tokens t = (map prints (entries n), None).
Proof. exact tokens_kept. Qed.
Print Assumptions C11_tokens_kept.
(** In particular they are the tokens of the query up to case and leading zeros of numbers. *)
Theorem C11_tokens_kept_up_to_case : forall n q ts, statement n = true -> to_tokens q = (ts, None)
  -> Forall2 reads (entries n) ts
  -> exists t ts', format_sql q = Ok t /\ to_tokens t = (ts', None) /\ Forall2 alike ts ts'.
Proof. exact tokens_kept_alike. Qed.
Print Assumptions C11_tokens_kept_up_to_case.
Definition sample_tokens : list str := fst (to_tokens sample).
Example C11_example : statement sample_tree = true /\ to_tokens sample = (sample_tokens, None)
  /\ Forall2 reads (entries sample_tree) sample_tokens /\ length sample_tokens = 51.
Proof.
  split; [vm_compute; reflexivity|]. split; [vm_compute; reflexivity|]. split; [|vm_compute; reflexivity].
  vm_compute. repeat constructor.
Qed.
(** Outside the fragment tokens are lost: after a complete aliased expression, after a parenthesis
    in a literal, LIMIT 0 of ARRAY_AGG, a second statement. *)
Theorem C11_any_query_refuted :
  format_sql "select a b c from t" = Ok "SELECT a b
FROM t"
  /\ format_sql "select '(' from t" = Ok "SELECT '(' from"
  /\ format_sql "select array_agg(x limit 0)" = Ok "SELECT ARRAY_AGG(x)"
  /\ format_sql "select 1; select 2" = Ok "SELECT 1;".
Proof. vm_compute. auto. Qed.
Print Assumptions C11_any_query_refuted.
(** Comments are read as signs and words, and what follows them is lost; so is what follows a doubled
    quote in a literal, or an operator the parser does not know. *)
Theorem C11_comments_refuted :
  format_sql "select a, -- first, second
b from t where x = 1 -- third
and y = 2" = Ok "SELECT
 a,
 - - first,
 second b
FROM t
WHERE x = 1 - -"
  /\ format_sql "select a /* first */ from t" = Ok "SELECT a / * first
FROM t"
  /\ format_sql "select a from t where b = 'it''s' and c = 1" = Ok "SELECT a
FROM t
WHERE b = 'it'"
  /\ format_sql "select a from t where b ilike 'x' order by a" = Ok "SELECT a
FROM t
WHERE b"
  /\ format_sql "select a % b from t" = Ok "SELECT a %
FROM t".
Proof. vm_compute. auto. Qed.
Print Assumptions C11_comments_refuted.

(** C10.  Two texts with the same words, keywords and function names in any case, both format, to
    the same text. *)
Theorem C10_keyword_case : forall n q1 q2 ts1 ts2, statement n = true
  -> to_tokens q1 = (ts1, None) -> Forall2 reads (entries n) ts1
  -> to_tokens q2 = (ts2, None) -> Forall2 reads (entries n) ts2
  -> exists t, format_sql q1 = Ok t /\ format_sql q2 = Ok t.
Proof. exact case_irrelevant. Qed.
Print Assumptions C10_keyword_case.
Definition sample2 : str :=
  "SELECT A.b,COUNT( dISTINCT C ) as n FROM T1 t INNER jOIN u USING(id)
WHERE x bETWEEN 1 And 2 AND nm LIKE 'a%' GROUP bY b HAVING Count(*)>1 ORDER BY n DESC LIMIT 10 ;".
Example C10_example : statement sample_tree = true
  /\ snd (to_tokens sample) = None /\ Forall2 reads (entries sample_tree) (fst (to_tokens sample))
  /\ snd (to_tokens sample2) = None /\ Forall2 reads (entries sample_tree) (fst (to_tokens sample2))
  /\ format_sql sample2 = Ok sample_out.
Proof.
  split; [vm_compute; reflexivity|]. split; [vm_compute; reflexivity|]. split; [vm_compute; repeat constructor|].
  split; [vm_compute; reflexivity|]. split; [vm_compute; repeat constructor|vm_compute; reflexivity].
Qed.
(** Outside the fragment the case matters: a CASE in upper case at the start of a piece is not
    counted as opened; the names of weekdays are keywords in lower case only. *)
Theorem C10_any_query_refuted :
  (exists t, format_sql "select case case when b then c end when e then f end" = Ok t)
  /\ format_sql "select case CASE when b then c end when e then f end" = Err AssertionError
  /\ format_sql "select monday" = Ok "SELECT MONDAY" /\ format_sql "select Monday" = Ok "SELECT Monday".
Proof.
  split; [|vm_compute; auto]. exists "SELECT CASE CASE
 WHEN b THEN c
END
 WHEN e THEN f
END". vm_compute. reflexivity.
Qed.
Print Assumptions C10_any_query_refuted.

(** C13.  The formatted text of a query with literals marked can be marked with the same literals,
    in the same order: same quotes, same contents. *)
Theorem C13_literals_kept : forall n m, statement n = true -> well_quoted m -> tame (flat m)
  -> Forall2 reads (entries n) (fst (to_tokens (flat m)))
  -> exists m', format_sql (flat m) = Ok (flat m') /\ well_quoted m' /\ tame (flat m') /\ literals m' = literals m.
Proof. exact literals_kept. Qed.
Print Assumptions C13_literals_kept.
Definition quoted : marked :=
  ("select a, ", [(39%N, "it(s  Select;", " As x from "); (96%N, "my table", " where b in ("); (39%N, "", ", "); (34%N, "q--", ") limit 1")]).
Definition quoted_tree : node := match parse_sql (flat quoted) with Ok n => n | Err _ => NNull end.
Ltac noquote := let c := fresh in let H := fresh in intros c H X; cbv in H, X;
  repeat match goal with H : _ \/ _ |- _ => destruct H end; subst; try discriminate; contradiction.
Example C13_example : statement quoted_tree = true /\ well_quoted quoted /\ tame (flat quoted)
  /\ Forall2 reads (entries quoted_tree) (fst (to_tokens (flat quoted))).
Proof.
  split; [vm_compute; reflexivity|]. split; [|split].
  - split; [noquote|]. repeat first [apply Forall_cons | apply Forall_nil | split]; try noquote; try (cbn; tauto);
      intros X; cbv in X; repeat match goal with H : _ \/ _ |- _ => destruct H end; subst; try discriminate; contradiction.
  - intros a b H. assert (X : In 92%N (flat quoted)) by (rewrite H; apply in_or_app; right; left; reflexivity). cbv in X.
    repeat match goal with H : _ \/ _ |- _ => destruct H end; subst; try discriminate; contradiction.
  - vm_compute. repeat constructor.
Qed.
Theorem C13_line_break_refuted :
  format_sql "select a, 'x
y' from t" = Ok "SELECT
 a,
 'x
 y'
FROM t".
Proof. vm_compute. reflexivity. Qed.
Print Assumptions C13_line_break_refuted.

(** C09.  The formatted text ends with a semicolon exactly if the query does, and contains none
    elsewhere. *)
Theorem C09_semicolon_kept : forall n q ts, statement n = true -> to_tokens q = (ts, None)
  -> Forall2 reads (entries n) ts
  -> exists t ts', format_sql q = Ok t /\ to_tokens t = (ts', None)
     /\ ((exists u, t = u ++ ";") <-> (exists r, ts = r ++ [";"]))
     /\ ~ In ";" (removelast ts').
Proof. exact semicolon_kept. Qed.
Print Assumptions C09_semicolon_kept.
Definition nested : str := "select a from (select b from t where c in (select d from u)) x;".
Definition nested_tree : node := match parse_sql nested with Ok n => n | Err _ => NNull end.
Example C09_example : statement nested_tree = true /\ snd (to_tokens nested) = None
  /\ Forall2 reads (entries nested_tree) (fst (to_tokens nested))
  /\ last (fst (to_tokens nested)) [] = ";".
Proof.
  split; [vm_compute; reflexivity|]. split; [vm_compute; reflexivity|]. split; [|vm_compute; reflexivity].
  vm_compute. repeat constructor.
Qed.
(** Outside the fragment a semicolon is lost with the words before it, and one in a subquery stays. *)
Theorem C09_any_query_refuted :
  format_sql "select a from t where b c d ;" = Ok "SELECT a
FROM t
WHERE b"
  /\ format_sql "select a from t where (select 1;)" = Ok "SELECT a
FROM t
WHERE (
 SELECT 1;
)".
Proof. vm_compute. auto. Qed.
Print Assumptions C09_any_query_refuted.

(** C14.  An integer of any length is written as the numeral of the same value without leading
    zeros, and that numeral stays as it is. *)
Theorem C14_integer : forall d, isdigit d = true -> exists c, numeral c /\ value c = value d
  /\ format_sql ("select " ++ d) = Ok ("SELECT " ++ c) /\ format_sql ("SELECT " ++ c) = Ok ("SELECT " ++ c).
Proof. exact integer_formatted. Qed.
Print Assumptions C14_integer.
Theorem C14_negative_integer : forall d, isdigit d = true -> value d <> 0%Z -> exists c, numeral c /\ value c = value d
  /\ format_sql ("select -" ++ d) = Ok ("SELECT -" ++ c) /\ format_sql ("SELECT -" ++ c) = Ok ("SELECT -" ++ c).
Proof. exact negative_formatted. Qed.
Print Assumptions C14_negative_integer.
(** There is only one such numeral. *)
Theorem C14_numeral_unique : forall s s', numeral s -> numeral s' -> value s = value s' -> s = s'.
Proof. exact numeral_unique. Qed.
Print Assumptions C14_numeral_unique.
(** Wherever an integer stands in a query of the fragment, a numeral of its value without leading
    zeros stands there in the formatted text. *)
Theorem C14_integers_kept : forall n q ts, statement n = true -> to_tokens q = (ts, None)
  -> Forall2 reads (entries n) ts
  -> exists t ts', format_sql q = Ok t /\ to_tokens t = (ts', None) /\ length ts' = length ts
     /\ forall i z d, nth_error (entries n) i = Some (Number z) -> nth_error ts i = Some d ->
        exists d', nth_error ts' i = Some d' /\ numeral d' /\ value d' = value d.
Proof. exact integers_kept. Qed.
Print Assumptions C14_integers_kept.
Example C14_example :
  isdigit "00012345678901234567890123" = true /\ value "00012345678901234567890123" = 12345678901234567890123%Z
  /\ format_sql "select 00012345678901234567890123" = Ok "SELECT 12345678901234567890123"
  /\ nth_error (entries sample_tree) 49 = Some (Number 10) /\ nth_error sample_tokens 49 = Some "010".
Proof. vm_compute. auto. Qed.
