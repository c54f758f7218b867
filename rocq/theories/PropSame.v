(** C41, C42: neither formatting nor the case of keywords changes what is_valid() says. *)
From Verif Require Import PyStr Ast AstLib Tokeniser Parser Render Api Validate SpecTok Grammar SpecVal SpecRound SpecSame ProofSame.
Local Open Scope str_scope.
Local Open Scope list_scope.

(** C41.  The formatted text of a statement of the fragment gets the same errors, in the same order,
    and the same answer or exception of is_valid(), as the text it was made from. *)
Theorem C41_formatting_keeps_verdict : forall q n, parse_sql q = Ok n -> statement n = true -> steady n
  -> exists t, format_sql q = Ok t
     /\ forall ord, errors_of ord t = errors_of ord q /\ verdict ord t = verdict ord q.
Proof. exact format_keeps_verdict. Qed.
Print Assumptions C41_formatting_keeps_verdict.

Definition faulty : str :=
  "select a, Sum(b) n from (Select A, b from t) x where 'x' group By c, 5 order by 3 limit -1".
Definition faulty_tree : node := match parse_sql faulty with Ok n => n | Err _ => NNull end.
Definition faulty_errors : list str :=
  ["The column a was not found"; "The argument of WHERE must be type boolean, not type str";
   "column ""c"" does not exist"; "GROUP BY position 5 is not in select list";
   "ORDER BY position 3 is not in select list"; "LIMIT must not be negative"].
Example C41_example : parse_sql faulty = Ok faulty_tree /\ statement faulty_tree = true
  /\ errors_of (fun s => s) faulty = Ok faulty_errors /\ verdict (fun s => s) faulty = Ok false.
Proof. vm_compute. auto. Qed.
Example C41_example_columns : plainly faulty_tree /\ steady faulty_tree.
Proof. assert (H : plainly faulty_tree) by (apply plainly_check; vm_compute; reflexivity). split; auto using plainly_steady. Qed.

(** A column called like a weekday is printed in upper case and then not found. *)
Theorem C41_any_column_refuted : exists q t, format_sql q = Ok t
  /\ verdict (fun s => s) q = Ok true /\ verdict (fun s => s) t = Ok false.
Proof.
  exists "select monday from (select a monday from t)", "SELECT MONDAY
FROM (
 SELECT a monday
 FROM t
)". vm_compute. auto.
Qed.
Print Assumptions C41_any_column_refuted.

(** C42.  Two texts with the same words, keywords and function names in any case, get the same errors
    and the same answer or exception. *)
Theorem C42_keyword_case_keeps_verdict : forall n q1 q2 ts1 ts2, statement n = true -> plainly n
  -> to_tokens q1 = (ts1, None) -> Forall2 reads (entries n) ts1
  -> to_tokens q2 = (ts2, None) -> Forall2 reads (entries n) ts2
  -> forall ord, errors_of ord q1 = errors_of ord q2 /\ verdict ord q1 = verdict ord q2.
Proof. exact case_keeps_verdict. Qed.
Print Assumptions C42_keyword_case_keeps_verdict.

Definition faulty2 : str :=
  "SELECT a,SUM( b )n FROM(SELECT A,b FROM t)x
WHERE 'x' GROUP BY c,05 ORDER BY 3 LIMIT - 1".
Example C42_example : statement faulty_tree = true /\ plainly faulty_tree
  /\ snd (to_tokens faulty) = None /\ Forall2 reads (entries faulty_tree) (fst (to_tokens faulty))
  /\ snd (to_tokens faulty2) = None /\ Forall2 reads (entries faulty_tree) (fst (to_tokens faulty2))
  /\ errors_of (fun s => s) faulty2 = Ok faulty_errors.
Proof.
  split; [vm_compute; reflexivity|]. split; [apply plainly_check; vm_compute; reflexivity|].
  split; [vm_compute; reflexivity|]. split; [vm_compute; repeat constructor|].
  split; [vm_compute; reflexivity|]. split; [vm_compute; repeat constructor|vm_compute; reflexivity].
Qed.

(** Outside the fragment the case of a keyword decides: a CASE at the start of a piece is counted as
    opened in lower case only. *)
Theorem C42_any_query_refuted :
  (exists b, verdict (fun s => s) "select case case when b then c end when e then f end from t" = Ok b)
  /\ verdict (fun s => s) "select case CASE when b then c end when e then f end from t" = Err AssertionError.
Proof. split; [exists true|]; vm_compute; reflexivity. Qed.
Print Assumptions C42_any_query_refuted.
