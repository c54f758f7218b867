(** C61: what --validate says of a project, before and after --format.  Definitions: SpecVerdict, SpecRun, SpecModes, SpecTokenize. *)
From Verif Require Import PyStr Tokeniser Ast Parser Render Validate Api PyTokens FileHandler Grammar SpecVal SpecFile SpecRun SpecModes SpecRound SpecStable SpecSource SpecSame
  PyTokenize SpecTokenize SpecVerdict ProofSame ProofAgain ProofVerdict2 PropFile PropRun PropStable PropSource PropTokenize.
Local Open Scope str_scope.
Local Open Scope list_scope.

(** C61.  Validate, format, validate again: the second validation prints the lines of the first and ends with
    the same status.  With -vv the line numbers of the queries may have changed, nothing else. *)
Theorem C61_same_verdict : forall E word v w v' w', v || w = true -> gen_tokens E = generate_tokens word ->
  forall srcs c code1 w1 code2 w2 code3 w3, no_links E srcs ->
  (forall f, In (Some f) (files E srcs) -> write_error E f = None /\ ordinary word (c (file_id E f)) = true
     /\ forall t, In t (fst (generate_tokens word (c (file_id E f)))) -> steady_query t) ->
  handle_inputs E (mk_opts false false v w) srcs (start c) = (code1, w1) -> no_complaint (trace w1) ->
  handle_inputs E (mk_opts true false v' w') srcs (start c) = (code2, w2) ->
  handle_inputs E (mk_opts false false v w) srcs (start (contents w2)) = (code3, w3) ->
  Forall2 same_but_line (trace w1) (trace w3) /\ (w = false -> trace w3 = trace w1) /\ code3 = code1.
Proof. exact verdict_again. Qed.
Print Assumptions C61_same_verdict.

Definition verdict_sources (k : N) : str := if N.eqb k 1 then "x = f'select a from t limit b'
y = 'select c from u'
" else "g(""select d from v limit e"", 1)
h('select f from w limit -1')
".
Definition verdict_run (o : options) (c : N -> str) := handle_inputs ex_files o ["d"] (start c).
Example C61_example :
  no_links ex_files ["d"]
  /\ (forall f, In (Some f) (files ex_files ["d"]) -> write_error ex_files f = None /\ ordinary ex_word (verdict_sources (file_id ex_files f)) = true
     /\ forall t, In t (fst (generate_tokens ex_word (verdict_sources (file_id ex_files f)))) -> steady_query t)
  /\ trace (snd (verdict_run (mk_opts false false true true) verdict_sources))
     = [ERead "d/a.py"; EPrint "invalid queries in d/a.py (1 invalid SQL)"; EPrint "L1 - argument of LIMIT must not contain variables";
        ERead "d/b.py"; EPrint "invalid queries in d/b.py (2 invalid SQL)"; EPrint "L1 - argument of LIMIT must not contain variables";
        EPrint "L2 - LIMIT must not be negative"; EPrint "2 files detected with invalid SQL (3 invalid SQL queries)."]
  /\ trace (snd (verdict_run (mk_opts false false true true) (contents (snd (verdict_run (mk_opts true false false false) verdict_sources)))))
     = [ERead "d/a.py"; EPrint "invalid queries in d/a.py (1 invalid SQL)"; EPrint "L1 - argument of LIMIT must not contain variables";
        ERead "d/b.py"; EPrint "invalid queries in d/b.py (2 invalid SQL)"; EPrint "L1 - argument of LIMIT must not contain variables";
        EPrint "L6 - LIMIT must not be negative"; EPrint "2 files detected with invalid SQL (3 invalid SQL queries)."].
Proof.
  assert (Q := steady_check).
  assert (NS : forall t, sql_string t = false -> steady_query t) by (intros t H1 H2; congruence).
  split; [|split; [|split; vm_compute; reflexivity]].
  - intros f g F G. vm_compute in F, G. destruct F as [F|[F|[]]], G as [G|[G|[]]]; injection F as <-; injection G as <-; vm_compute; congruence.
  - intros f F. vm_compute in F. destruct F as [F|[F|[]]]; injection F as <-; (split; [reflexivity|]); (split; [vm_compute; reflexivity|]); intros t I; vm_compute in I.
    + repeat (destruct I as [<-|I]; [first [apply NS; vm_compute; reflexivity|idtac]|]); [| |destruct I].
      * apply (Q _ "f" "'" "select a from t limit b"); try (vm_compute; reflexivity); [vm_compute; repeat constructor|apply plainly_check; vm_compute; reflexivity].
      * apply (Q _ "" "'" "select c from u"); try (vm_compute; reflexivity); [vm_compute; repeat constructor|apply plainly_check; vm_compute; reflexivity].
    + repeat (destruct I as [<-|I]; [first [apply NS; vm_compute; reflexivity|idtac]|]); [| |destruct I].
      * apply (Q _ "" """" "select d from v limit e"); try (vm_compute; reflexivity); [vm_compute; repeat constructor|apply plainly_check; vm_compute; reflexivity].
      * apply (Q _ "" "'" "select f from w limit -1"); try (vm_compute; reflexivity); [vm_compute; repeat constructor|apply plainly_check; vm_compute; reflexivity].
Qed.

(** C61.  Of such files the formatted one is again an ordinary file, with the tokens that were written. *)
Theorem C61_ordinary_again : forall word ord fmt val src ts eos st r, ordinary word src = true -> generate_tokens word src = (ts, eos) ->
  compute_tokens ord fmt val ts eos = Ok st -> compute_file_content ord fmt val ts eos = Ok r -> (forall t, In t ts -> steady_query t) ->
  ordinary word (r_content r) = true
  /\ exists ts2, generate_tokens word (r_content r) = (ts2, None)
     /\ map (fun t => (t_type t, t_text t)) ts2 = map (fun t => (t_type t, t_text t)) (c_tokens st).
Proof. exact steady_again. Qed.
Print Assumptions C61_ordinary_again.
Example C61_ordinary_again_example :
  match compute_file_content (fun x => x) true false (fst (generate_tokens ex_word (verdict_sources 2))) None with
  | Ok r => r_changed r = 2 /\ ordinary ex_word (r_content r) = true /\ r_content r = "g(""""""
SELECT d
FROM v
LIMIT e
"""""", 1)
h('''
SELECT f
FROM w
LIMIT -1
''')
"
  | Err _ => False
  end.
Proof. vm_compute. auto. Qed.

(** A column called like a weekday: no query is invalid, and after formatting one is. *)
Theorem C61_any_column_refuted : exists E word srcs c w2 w3,
  gen_tokens E = generate_tokens word /\ no_links E srcs
  /\ (forall f, In (Some f) (files E srcs) -> write_error E f = None /\ ordinary word (c (file_id E f)) = true)
  /\ (exists w1, handle_inputs E (mk_opts false false true false) srcs (start c) = (0, w1) /\ In (EPrint "No invalid queries found.") (trace w1))
  /\ handle_inputs E (mk_opts true false false false) srcs (start c) = (0, w2)
  /\ handle_inputs E (mk_opts false false true false) srcs (start (contents w2)) = (1, w3)
  /\ In (EPrint "1 file detected with invalid SQL (1 invalid SQL query).") (trace w3).
Proof. exact weekday_invalid. Qed.
Print Assumptions C61_any_column_refuted.
