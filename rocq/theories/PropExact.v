(** C65: what --validate says of files whose queries are on tables.  Definitions: SpecExact, SpecTables, SpecFailed, SpecFile, SpecRun, SpecModes, SpecTokenize. *)
From Verif Require Import PyStr Tokeniser Ast Parser Render Validate Api PyTokens FileHandler Grammar SpecVal SpecApi SpecReport SpecNested SpecAnswer SpecStuck SpecTables SpecScope SpecNamed SpecFile PyTokenize SpecTokenize SpecRun SpecModes
  SpecFailed SpecExact ProofTables ProofFailed ProofExact PropTokenize.
Local Open Scope str_scope.
Local Open Scope list_scope.

(** C65.  A validating run over ordinary files whose SQL strings hold SELECTs of the fragment on tables,
    with or without aliases.  Without
    --check-format the exit status is 1 exactly when a file that can be analysed has a faulty query that is to be validated,
    and 0 otherwise. *)
Theorem C65_exit_status : forall E word O srcs c, gen_tokens E = generate_tokens word -> is_order (set_order E) -> one_name E srcs ->
  (forall f, In (Some f) (files E srcs) -> open_error E f = None /\ write_error E f = None /\ ordinary word (c (file_id E f)) = true
     /\ forall t, In t (fst (generate_tokens word (c (file_id E f)))) -> table_query t) ->
  forall code w, handle_inputs E O srcs (start c) = (code, w) ->
  f_validate O = true -> f_check O = false ->
  (code = 1 /\ exists f a t r, In (Some f) (files E srcs) /\ ~ halting_file true (fst (generate_tokens word (c (file_id E f))))
     /\ fst (generate_tokens word (c (file_id E f))) = a ++ t :: r /\ checked true t r = true /\ faulty_query t)
  \/ (code = 0 /\ ~ exists f a t r, In (Some f) (files E srcs) /\ ~ halting_file true (fst (generate_tokens word (c (file_id E f))))
     /\ fst (generate_tokens word (c (file_id E f))) = a ++ t :: r /\ checked true t r = true /\ faulty_query t).
Proof. exact status. Qed.
Print Assumptions C65_exit_status.

(** C65.  For each file: the run prints an exception exactly when one of the queries to be validated halts validation. *)
Theorem C65_failed : forall E word O srcs c, gen_tokens E = generate_tokens word -> is_order (set_order E) -> one_name E srcs ->
  (forall f, In (Some f) (files E srcs) -> open_error E f = None /\ write_error E f = None /\ ordinary word (c (file_id E f)) = true
     /\ forall t, In t (fst (generate_tokens word (c (file_id E f)))) -> table_query t) ->
  forall code w, handle_inputs E O srcs (start c) = (code, w) -> forall f, In (Some f) (files E srcs) ->
  ((exists e, In (EPrintExn f e) (trace w)) <-> halting_file (f_validate O || f_verbose O) (fst (generate_tokens word (c (file_id E f))))).
Proof. exact failed_tables. Qed.
Print Assumptions C65_failed.

(** C65.  For every other file the number that is printed is the number of faulty queries to be validated. *)
Theorem C65_counted : forall E word O srcs c, gen_tokens E = generate_tokens word -> is_order (set_order E) -> one_name E srcs ->
  (forall f, In (Some f) (files E srcs) -> open_error E f = None /\ write_error E f = None /\ ordinary word (c (file_id E f)) = true
     /\ forall t, In t (fst (generate_tokens word (c (file_id E f)))) -> table_query t) ->
  forall code w, handle_inputs E O srcs (start c) = (code, w) -> forall f k, In (Some f) (files E srcs) -> f_validate O || f_verbose O = true ->
  ~ halting_file (f_validate O || f_verbose O) (fst (generate_tokens word (c (file_id E f)))) ->
  faults (f_validate O || f_verbose O) (fst (generate_tokens word (c (file_id E f)))) k -> 0 < k ->
  In (EPrint ("invalid queries in " ++ f ++ " (" ++ str_of_nat k ++ " invalid SQL)")) (trace w).
Proof. exact counted. Qed.
Print Assumptions C65_counted.

(** The first file has a query that halts validation, which hides the faulty one after it; the second has three faulty
    queries that are to be validated, one of them for a column that no table in scope has, and one that is not. *)
Definition exact_sources (k : N) : str := if N.eqb k 1 then "x = f'select a from t where b and (select c from u)'
y = 'select c from u limit d'
" else "g(""select d from v where 'x'"", 1)  # nosqlvalidation
h('select f from t limit -2')
k('select f, g from t group by f, 3')
m('select f, g from t, u where t.f = u.g order by 2')
p('select x.f from `t` x where g = 1')
".
Definition exact_run (srcs : list str) (o : options) := handle_inputs ex_files o srcs (start exact_sources).
Definition exact_literals : list (str * str * str) :=
  [("f", "'", "select a from t where b and (select c from u)"); ("", "'", "select c from u limit d"); ("", """", "select d from v where 'x'");
   ("", "'", "select f from t limit -2"); ("", "'", "select f, g from t group by f, 3"); ("", "'", "select f, g from t, u where t.f = u.g order by 2");
   ("", "'", "select x.f from `t` x where g = 1")].
Lemma exact_files : forall srcs, In srcs [["d"]; ["d/a.py"]] -> one_name ex_files srcs
  /\ forall f, In (Some f) (files ex_files srcs) -> open_error ex_files f = None /\ write_error ex_files f = None /\ ordinary ex_word (exact_sources (file_id ex_files f)) = true
     /\ forall t, In t (fst (generate_tokens ex_word (exact_sources (file_id ex_files f)))) -> table_query t.
Proof.
  intros srcs Is.
  assert (FS : forall f, In (Some f) (files ex_files srcs) -> f = "d/a.py" \/ f = "d/b.py").
  { intros f F. destruct Is as [<-|[<-|[]]]; vm_compute in F; repeat (destruct F as [F|F]; [injection F as <-; auto|]); destruct F. }
  split.
  - intros f g F G. apply FS in F, G. destruct F, G; subst; vm_compute; intros [X|X]; congruence.
  - intros f F. apply FS in F. destruct F; subst; (split; [reflexivity|]); (split; [reflexivity|]); (split; [vm_compute; reflexivity|]);
      apply (table_toks exact_literals); vm_compute; reflexivity.
Qed.
Example C65_example : forall srcs, In srcs [["d"]; ["d/a.py"]] ->
  (one_name ex_files srcs
   /\ forall f, In (Some f) (files ex_files srcs) -> open_error ex_files f = None /\ write_error ex_files f = None /\ ordinary ex_word (exact_sources (file_id ex_files f)) = true
     /\ forall t, In t (fst (generate_tokens ex_word (exact_sources (file_id ex_files f)))) -> table_query t)
  /\ fst (exact_run srcs (mk_opts false false true false)) = (if str_eqb (hd [] srcs) "d" then 1 else 0).
Proof. intros srcs I. split; [apply exact_files; exact I|]. destruct I as [<-|[<-|[]]]; vm_compute; reflexivity. Qed.
Example C65_example_run : trace (snd (exact_run ["d"] (mk_opts false false true false)))
  = [ERead "d/a.py"; EPrintExn "d/a.py" AttributeError; ERead "d/b.py"; EPrint "invalid queries in d/b.py (3 invalid SQL)"; EPrint "1 file detected with invalid SQL (3 invalid SQL queries)."].
Proof. vm_compute. reflexivity. Qed.
