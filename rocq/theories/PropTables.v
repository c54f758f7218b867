(** C64: the exact answer of is_valid() for queries on tables.  Definitions: SpecTables, SpecStuck, SpecNested. *)
From Verif Require Import PyStr Ast AstLib Validate Api Grammar SpecVal SpecReport SpecApi SpecAnswer SpecNested SpecStuck SpecTables ProofTables.
Local Open Scope str_scope.
Local Open Scope list_scope.

(** C64.  A SELECT whose clauses other than FROM are of the fragment and whose FROM clauses name tables without aliases: is_valid() raises exactly when something
    that is looked at halts it; otherwise it is False exactly when something that is looked at is faulty, and True
    exactly when nothing is. *)
Theorem C64_tables_answer : forall q n ord, is_order ord -> parse_sql q = Ok n -> is_sel n = true -> statement (without_from n) = true -> on_tables n ->
  ((exists e, fst (q_is_valid ord (new_query q)) = Err e) <-> exists x, looked x n /\ halts x)
  /\ (fst (q_is_valid ord (new_query q)) = Ok false <-> (~ exists x, looked x n /\ halts x) /\ exists x, looked x n /\ faulty x)
  /\ (fst (q_is_valid ord (new_query q)) = Ok true <-> (~ exists x, looked x n /\ halts x) /\ ~ exists x, looked x n /\ faulty x).
Proof. exact tables_answer. Qed.
Print Assumptions C64_tables_answer.
Definition tree (q : str) : node := match parse_sql q with Ok n => n | Err _ => NNull end.
Definition answer (q : str) : R bool := fst (q_is_valid (fun s => s) (new_query q)).
Definition raising : str := "select a from t where b and (select true from u)".
Definition bare : str := "select a from t join u where b".
Definition wrong : str := "select a, (select max(c) from u where f(d) > 1 and 'x') from (t join v using (k)), w order by 1;".
(** strings under NOT, in ON and in CASE, where validation does not look *)
Definition fine : str := "select x.a, case when 'u' or 'v' then 1 end from t join u on 'w' where not ('z' and 1) group by 2, b having c order by b limit (10)".
Example C64_example : forall q, In q [raising; wrong; bare; fine] ->
  parse_sql q = Ok (tree q) /\ is_sel (tree q) = true /\ statement (without_from (tree q)) = true /\ on_tables (tree q).
Proof.
  intros q I. repeat (destruct I as [<-|I]; [split; [vm_compute; reflexivity|]; split; [vm_compute; reflexivity|]; split; [vm_compute; reflexivity|apply on_tablesb_ok; vm_compute; reflexivity]|]). destruct I.
Qed.
Example C64_example_answers :
  (exists x, looked x (tree raising) /\ halts x) /\ answer raising = Err AttributeError
  /\ (exists x, looked x (tree wrong) /\ faulty x) /\ answer wrong = Ok false
  /\ (exists x, looked x (tree bare) /\ faulty x) /\ answer bare = Ok false
  /\ (~ exists x, looked x (tree fine) /\ halts x) /\ (~ exists x, looked x (tree fine) /\ faulty x) /\ answer fine = Ok true.
Proof.
  assert (O : is_order (fun s => s)) by (intros s; apply Permutation.Permutation_refl).
  assert (R : answer raising = Err AttributeError) by (vm_compute; reflexivity).
  assert (W : answer wrong = Ok false) by (vm_compute; reflexivity).
  assert (F : answer fine = Ok true) by (vm_compute; reflexivity).
  assert (B : answer bare = Ok false) by (vm_compute; reflexivity).
  destruct (C64_example bare ltac:(cbn; auto)) as (B1 & B2 & B3 & B4). pose proof (proj1 (proj2 (C64_tables_answer _ _ _ O B1 B2 B3 B4))) as BA.
  destruct (C64_example raising ltac:(cbn; auto)) as (R1 & R2 & R3 & R4). destruct (C64_example wrong ltac:(cbn; auto)) as (W1 & W2 & W3 & W4).
  destruct (C64_example fine ltac:(cbn; auto)) as (F1 & F2 & F3 & F4).
  pose proof (proj1 (C64_tables_answer _ _ _ O R1 R2 R3 R4)) as RA. pose proof (proj1 (proj2 (C64_tables_answer _ _ _ O W1 W2 W3 W4))) as WA.
  pose proof (proj2 (proj2 (C64_tables_answer _ _ _ O F1 F2 F3 F4))) as FA. unfold answer in *.
  apply proj1 in BA. specialize (BA B). apply proj1 in WA. specialize (WA W). apply proj1 in FA. specialize (FA F). split; [apply RA; exists AttributeError; exact R|]. intuition.
Qed.
