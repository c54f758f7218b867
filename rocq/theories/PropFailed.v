(** C63: the files that a run complains about.  Definitions: SpecFailed, SpecStuck, SpecFile, SpecRun, SpecModes, SpecTokenize. *)
From Verif Require Import PyStr Tokeniser Ast Parser Render Validate Api PyTokens FileHandler Grammar SpecVal SpecApi SpecReport SpecNested SpecAnswer SpecStuck SpecFile PyTokenize SpecTokenize SpecRun SpecModes
  SpecFailed ProofVerdict2 ProofFailed PropTokenize.
Local Open Scope str_scope.
Local Open Scope list_scope.

(** C63.  Any run over ordinary files whose SQL strings hold SELECTs of the fragment with settled names: the run says that a
    file failed exactly when one of the queries that are to be validated has a stuck part that validation looks at. *)
Theorem C63_failed_files : forall E word O srcs c code w, gen_tokens E = generate_tokens word -> is_order (set_order E) -> one_name E srcs ->
  (forall f, In (Some f) (files E srcs) -> open_error E f = None /\ write_error E f = None /\ ordinary word (c (file_id E f)) = true
     /\ forall t, In t (fst (generate_tokens word (c (file_id E f)))) -> clear_query t) ->
  handle_inputs E O srcs (start c) = (code, w) ->
  forall f, In (Some f) (files E srcs) ->
  ((exists e, In (EPrintExn f e) (trace w)) <->
   exists a t r, fst (generate_tokens word (c (file_id E f))) = a ++ t :: r /\ checked (f_validate O || f_verbose O) t r = true /\ broken_query t).
Proof. exact failed_files. Qed.
Print Assumptions C63_failed_files.

Definition failed_sources (k : N) : str := if N.eqb k 1 then "x = f'select a from t where b = cast(c as int)'
y = 'select c from u limit d'
" else "g(""select cast(d as int) from v"", 1)  # nosqlvalidation
h('select f from t join u on cast(f as int) = e limit -1')
".
Definition failed_run (o : options) := handle_inputs ex_files o ["d"] (start failed_sources).
Example C63_example :
  one_name ex_files ["d"]
  /\ (forall f, In (Some f) (files ex_files ["d"]) -> open_error ex_files f = None /\ write_error ex_files f = None /\ ordinary ex_word (failed_sources (file_id ex_files f)) = true
     /\ forall t, In t (fst (generate_tokens ex_word (failed_sources (file_id ex_files f)))) -> clear_query t)
  /\ trace (snd (failed_run (mk_opts false false true false)))
     = [ERead "d/a.py"; EPrintExn "d/a.py" AttributeError; ERead "d/b.py"; EPrint "invalid queries in d/b.py (1 invalid SQL)";
        EPrint "1 file detected with invalid SQL (1 invalid SQL query)."].
Proof.
  assert (NS : forall t, sql_string t = false -> clear_query t) by (intros t H1 H2; congruence).
  split; [|split; [|vm_compute; reflexivity]].
  - intros f g F G. vm_compute in F, G. destruct F as [F|[F|[]]], G as [G|[G|[]]]; injection F as <-; injection G as <-; vm_compute; intros [H|H]; congruence.
  - intros f F. vm_compute in F. destruct F as [F|[F|[]]]; injection F as <-; (split; [reflexivity|]); (split; [reflexivity|]); (split; [vm_compute; reflexivity|]); intros t I; vm_compute in I.
    + repeat (destruct I as [<-|I]; [first [apply NS; vm_compute; reflexivity|idtac]|]); [| |destruct I].
      * apply (clear_check _ "f" "'" "select a from t where b = cast(c as int)"); vm_compute; reflexivity.
      * apply (clear_check _ "" "'" "select c from u limit d"); vm_compute; reflexivity.
    + repeat (destruct I as [<-|I]; [first [apply NS; vm_compute; reflexivity|idtac]|]); [| |destruct I].
      * apply (clear_check _ "" """" "select cast(d as int) from v"); vm_compute; reflexivity.
      * apply (clear_check _ "" "'" "select f from t join u on cast(f as int) = e limit -1"); vm_compute; reflexivity.
Qed.

(** C63.  Without --validate and -vv no such file fails. *)
Theorem C63_formatting_never_fails : forall E word O srcs c code w, gen_tokens E = generate_tokens word -> is_order (set_order E) -> one_name E srcs ->
  f_validate O || f_verbose O = false ->
  (forall f, In (Some f) (files E srcs) -> open_error E f = None /\ write_error E f = None /\ ordinary word (c (file_id E f)) = true
     /\ forall t, In t (fst (generate_tokens word (c (file_id E f)))) -> clear_query t) ->
  handle_inputs E O srcs (start c) = (code, w) ->
  forall f e, In (Some f) (files E srcs) -> ~ In (EPrintExn f e) (trace w).
Proof. exact formatting_never_fails. Qed.
Print Assumptions C63_formatting_never_fails.
Example C63_formatting_example :
  fst (failed_run (mk_opts true false false false)) = 0
  /\ trace (snd (failed_run (mk_opts false true false false)))
     = [ERead "d/a.py"; EPrint "would reformat d/a.py (2 changed SQL)"; ERead "d/b.py"; EPrint "would reformat d/b.py (2 changed SQL)"; EPrint "2 files would be reformatted (4 changed SQL queries)."].
Proof. vm_compute. auto. Qed.
