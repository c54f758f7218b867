(** C57-C59: runs with other options or other inputs.  Definitions: SpecModes, SpecRun, SpecArgs, SpecTokenize. *)
From Verif Require Import PyStr Tokeniser Ast Parser Render Validate Api PyTokens FileHandler PyTokenize SpecTokenize Args SpecArgs SpecVal SpecFile SpecRun
  ProofArgs3 SpecModes ProofModes ProofModes2 ProofModes3 ProofModes4 ProofModes5 ProofModes6 PropTokenize.
From Coq Require Import Permutation.
Local Open Scope str_scope.
Local Open Scope list_scope.

(** The command lines and the directory of the examples: [d] has two files and two queries to be formatted. *)
Example commands : command ["--check-format"; "d"] ["d"] (mk_opts false true false false) /\ command ["d"; "--form"] ["d"] (mk_opts true false false false)
  /\ no_links ex_files ["d"] /\ one_name ex_files ["d"; "d/b.py"] /\ plain_files ex_files ["d"].
Proof.
  split; [apply parse_iff; vm_compute; reflexivity|]. split; [apply parse_iff; vm_compute; reflexivity|]. repeat split.
  - intros f g F G. vm_compute in F, G. destruct F as [F|[F|[]]], G as [G|[G|[]]]; injection F as <-; injection G as <-; intros K; try reflexivity; discriminate K.
  - intros f g F G. vm_compute in F, G. destruct F as [F|[F|[F|[]]]], G as [G|[G|[G|[]]]]; injection F as <-; injection G as <-; intros [K|K]; try reflexivity; discriminate K.
  - vm_compute in H. destruct H as [H|[H|[]]]; injection H as <-; reflexivity.
  - vm_compute in H. destruct H as [H|[H|[]]]; injection H as <-; reflexivity.
Qed.

(** C57.  What --check-format says is what --format does on the same files: same lines but for the announced changes,
    each of which is made, and the same totals; its status is 1 exactly if --format writes (or itself ends with 1
    because of --validate). *)
Theorem C57_announced : forall E v w argv1 argv2 srcs c code1 w1 code2 w2,
  command argv1 srcs (mk_opts false true v w) -> command argv2 srcs (mk_opts true false v w) ->
  no_links E srcs -> (forall f, In (Some f) (files E srcs) -> write_error E f = None) ->
  program E argv1 (start c) = (code1, w1) -> program E argv2 (start c) = (code2, w2) ->
  (exists t1 t2 n u s, trace w1 = t1 ++ EPrint (n ++ " would be reformatted" ++ u) :: s
     /\ trace w2 = t2 ++ EPrint (n ++ " reformatted" ++ u) :: s /\ announces t1 t2)
  /\ (code1 = 1 <-> writes (trace w2) <> [] \/ code2 = 1).
Proof. exact announced_program. Qed.
Print Assumptions C57_announced.
Example C57_announced_example :
  fst (program ex_files ["--check-format"; "d"] (start ex_sources)) = 1
  /\ trace (snd (program ex_files ["--check-format"; "d"] (start ex_sources)))
     = [ERead "d/a.py"; EPrint "would reformat d/a.py (1 changed SQL)"; ERead "d/b.py"; EPrint "would reformat d/b.py (1 changed SQL)";
        EPrint "2 files would be reformatted (2 changed SQL queries)."]
  /\ writes (trace (snd (program ex_files ["d"; "--form"] (start ex_sources)))) = ["d/a.py"; "d/b.py"].
Proof. vm_compute. auto. Qed.
(** A file under two paths is announced twice and changed once. *)
Theorem C57_links_refuted : exists E srcs c, (forall f, write_error E f = None)
  /\ In (EPrint "2 files would be reformatted (2 changed SQL queries).") (trace (snd (program E ("--check-format" :: srcs) (start c))))
  /\ In (EPrint "1 file reformatted (1 changed SQL queries).") (trace (snd (program E ("--format" :: srcs) (start c)))).
Proof. exact linked. Qed.
Print Assumptions C57_links_refuted.
(** C57.  After --format, on ordinary files with simple queries, --check-format finds nothing and a second --format
    writes nothing. *)
Theorem C57_settled : forall word E v w argv1 argv2 argv3 srcs c code1 w1 code2 w2 code3 w3,
  gen_tokens E = generate_tokens word ->
  (forall f, In (Some f) (files E srcs) -> write_error E f = None /\ ordinary word (c (file_id E f)) = true
     /\ forall t, In t (fst (generate_tokens word (c (file_id E f)))) -> simple_query t) ->
  command argv1 srcs (mk_opts true false v w) -> command argv2 srcs (mk_opts false true v w) -> command argv3 srcs (mk_opts true false v w) ->
  program E argv1 (start c) = (code1, w1) -> program E argv2 (start (contents w1)) = (code2, w2) -> program E argv3 (start (contents w1)) = (code3, w3) ->
  In (EPrint "No file would be reformatted.") (trace w2) /\ (v = false -> code2 = 0)
  /\ writes (trace w3) = [] /\ contents w3 = contents w1.
Proof. exact settled_program. Qed.
Print Assumptions C57_settled.
(** the hypotheses: C53_format_then_check_example *)
Example C57_settled_example :
  trace (snd (program ex_files ["d"; "--form"] (start (contents (snd (program ex_files ["--format"; "d"] (start ex_sources)))))))
  = [ERead "d/a.py"; ERead "d/b.py"; EPrint "No file reformatted."].
Proof. vm_compute. reflexivity. Qed.

(** C58.  The new content of a file is the same without validation, and the reported errors are the same without
    formatting. *)
Theorem C58_format : forall ord ts eos r, compute_file_content ord true true ts eos = Ok r ->
  exists r', compute_file_content ord true false ts eos = Ok r' /\ r_changed r' = r_changed r /\ r_content r' = r_content r.
Proof. exact format_alone. Qed.
Print Assumptions C58_format.
Theorem C58_validate : forall ord ts eos r, compute_file_content ord true true ts eos = Ok r ->
  exists r', compute_file_content ord false true ts eos = Ok r' /\ r_invalid r' = r_invalid r /\ r_locs r' = r_locs r.
Proof. exact validate_alone. Qed.
Print Assumptions C58_validate.
(** For whole runs in which no file fails: --format with and without --validate or --verbose-validate changes the same
    files in the same way and says so in the same lines. *)
Theorem C58_run_format : forall E v w srcs c code1 w1 code2 w2,
  handle_inputs E (mk_opts true false v w) srcs (start c) = (code1, w1) -> no_complaint (trace w1) ->
  handle_inputs E (mk_opts true false false false) srcs (start c) = (code2, w2) ->
  contents w2 = contents w1 /\ filter about_format (trace w2) = filter about_format (trace w1).
Proof. exact format_same. Qed.
Print Assumptions C58_run_format.
(** Validation says the same without --format ([fm] true) or --check-format ([fm] false), and ends with the same status. *)
Theorem C58_run_validate : forall E fm v w, v || w = true -> forall srcs c code1 w1 code2 w2, no_links E srcs ->
  handle_inputs E (mk_opts fm (negb fm) v w) srcs (start c) = (code1, w1) -> no_complaint (trace w1) ->
  handle_inputs E (mk_opts false false v w) srcs (start c) = (code2, w2) ->
  (exists t x s, trace w1 = t ++ EPrint x :: s /\ trace w2 = filter (fun e => negb (about_format e)) t ++ s)
  /\ (code2 = 1 -> code1 = 1) /\ (fm = true -> code2 = code1).
Proof. exact validate_same. Qed.
Print Assumptions C58_run_validate.
Example C58_run_example :
  let c := fun k => if N.eqb k 1 then "x = 'select a from t limit b'
" else "y = 2
" in
  trace (snd (handle_inputs ex_files (mk_opts true false true false) ["d"] (start c)))
  = [ERead "d/a.py"; EWrite "d/a.py" "x = '''
SELECT a
FROM t
LIMIT b
'''
"; EPrint "reformatted d/a.py (1 changed SQL)"; EPrint "invalid queries in d/a.py (1 invalid SQL)"; ERead "d/b.py";
     EPrint "1 file reformatted (1 changed SQL queries)."; EPrint "1 file detected with invalid SQL (1 invalid SQL query)."]
  /\ trace (snd (handle_inputs ex_files (mk_opts false false true false) ["d"] (start c)))
  = [ERead "d/a.py"; EPrint "invalid queries in d/a.py (1 invalid SQL)"; ERead "d/b.py";
     EPrint "1 file detected with invalid SQL (1 invalid SQL query)."].
Proof. vm_compute. auto. Qed.
(** If a file fails they do: here --validate keeps --format from formatting, *)
Theorem C58_format_refuted : exists E f c,
  writes (trace (snd (program E ["--format"; f] (start c)))) = [f]
  /\ writes (trace (snd (program E ["--format"; "--validate"; f] (start c)))) = [].
Proof. exact validation_stops_format. Qed.
Print Assumptions C58_format_refuted.
(** and here --format keeps --validate from reporting an invalid query. *)
Theorem C58_validate_refuted : exists E f c,
  fst (program E ["--validate"; f] (start c)) = 1 /\ fst (program E ["--format"; "--validate"; f] (start c)) = 0.
Proof. exact format_stops_validation. Qed.
Print Assumptions C58_validate_refuted.

(** C59.  What happens to a file, and what is said about it, is what happens when it is the only input. *)
Theorem C59_file : forall E O c srcs code w f code' w', no_links E srcs -> handle_inputs E O srcs (start c) = (code, w) ->
  In f (reads (trace w)) -> isdir E f = false -> isfile E f = true -> handle_inputs E O [f] (start c) = (code', w') ->
  contents w (file_id E f) = contents w' (file_id E f)
  /\ exists pre block post lines, trace w = pre ++ (ERead f :: block) ++ post /\ trace w' = (ERead f :: block) ++ lines
     /\ reads lines = [] /\ writes lines = [].
Proof. exact file_local. Qed.
Print Assumptions C59_file.
(** Files that are not read keep their content. *)
Theorem C59_others : forall E O c srcs code w k, no_links E srcs -> handle_inputs E O srcs (start c) = (code, w) ->
  (forall f, In f (reads (trace w)) -> file_id E f <> k) -> contents w k = c k.
Proof. exact others_kept. Qed.
Print Assumptions C59_others.
(** The status is 1 exactly if it is 1 for one of the files alone. *)
Theorem C59_status : forall E O c srcs code w, no_links E srcs ->
  (forall f, In (Some f) (files E srcs) -> isdir E f = false /\ isfile E f = true) -> handle_inputs E O srcs (start c) = (code, w) ->
  (code = 1 <-> exists f, In f (reads (trace w)) /\ fst (handle_inputs E O [f] (start c)) = 1).
Proof. exact status_any. Qed.
Print Assumptions C59_status.
(** The order of the inputs matters for the order of the lines only. *)
Theorem C59_order : forall E O c srcs srcs' code w code' w', one_name E srcs -> Permutation (files E srcs) (files E srcs') ->
  handle_inputs E O srcs (start c) = (code, w) -> handle_inputs E O srcs' (start c) = (code', w') ->
  code' = code /\ (forall k, contents w' k = contents w k) /\ Permutation (trace w) (trace w').
Proof. exact order_free. Qed.
Print Assumptions C59_order.
Example C59_example :
  files ex_files ["d"; "d/b.py"] = [Some "d/a.py"; Some "d/b.py"; Some "d/b.py"]
  /\ files ex_files ["d/b.py"; "d"] = [Some "d/b.py"; Some "d/a.py"; Some "d/b.py"]
  /\ trace (snd (handle_inputs ex_files (mk_opts false true false false) ["d/b.py"; "d"] (start ex_sources)))
     = [ERead "d/b.py"; EPrint "would reformat d/b.py (1 changed SQL)"; ERead "d/a.py"; EPrint "would reformat d/a.py (1 changed SQL)";
        EPrint "2 files would be reformatted (2 changed SQL queries)."].
Proof. vm_compute. auto. Qed.
