(** Properties of a whole run: C27-C29, C35-C37.  Definitions: SpecRun. *)
From Verif Require Import PyStr Tokeniser Ast Parser Render Validate Api PyTokens FileHandler SpecVal SpecFile SpecRun
  ProofRun ProofRun2 ProofRun3.
Local Open Scope str_scope.
Local Open Scope list_scope.

(** A small world for the examples: directory [d] with [d/a.py], [d/b.py] (cannot be tokenised) and
    [d/n.txt], and the same [d/a.py] under the name [./d/a.py]. *)
Definition ex_tokens (s : str) (l : Z) : list pytok :=
  [mk_tok TString s (1, 0)%Z (l, 3)%Z; mk_tok TNewline nl (l, 3)%Z (l, 4)%Z; mk_tok TEnd "" (l + 1, 0)%Z (l + 1, 0)%Z].
Definition ex_src : str := "'''select a from t limit b'''" ++ nl.
Definition ex_new : str := "'''" ++ nl ++ "SELECT a" ++ nl ++ "FROM t" ++ nl ++ "LIMIT b" ++ nl ++ "'''".
Definition ex_env : env := {|
  isdir s := str_eqb s "d"; isfile := endswith ".py";
  walk _ := ["d/a.py"; "d/b.py"; "d/n.txt"];
  abspath s := if str_eqb s "./d/a.py" then "/d/a.py" else "/" ++ s;
  file_id s := if endswith "a.py" s then 1%N else 2%N;
  open_error _ := None;
  gen_tokens s := if str_eqb s ex_src then (ex_tokens "'''select a from t limit b'''" 1, None)
                  else if str_eqb s (ex_new ++ nl) then (ex_tokens ex_new 5, None)
                  else ([], Some (OtherError "TokenError"));
  write_error _ := None;
  set_order x := x |}.
Definition ex_contents (k : N) : str := if N.eqb k 1 then ex_src else "(".

(** C27.  Without --format nothing is written. *)
Theorem C27_no_write_without_format : forall E O srcs c code w,
  handle_inputs E O srcs (start c) = (code, w) ->
  f_format O = false -> writes (trace w) = [] /\ contents w = c.
Proof. exact not_written. Qed.
Print Assumptions C27_no_write_without_format.
(** With it, each absolute path is written at most once, right after it was read, only if a query of
    it changes, and with the formatted content (or what a failing write leaves). *)
Theorem C27_writes : forall E O srcs c code w, handle_inputs E O srcs (start c) = (code, w) ->
  contents w = replay E c (trace w)
  /\ NoDup (map (abspath E) (writes (trace w)))
  /\ forall pre f x post, trace w = pre ++ EWrite f x :: post ->
     f_format O = true /\ exists pre' r, pre = pre' ++ [ERead f] /\ open_error E f = None
      /\ result E O f (replay E c pre) = Ok r /\ 0 < r_changed r
      /\ (x = r_content r /\ write_error E f = None \/ exists e, write_error E f = Some (e, Some x)).
Proof. exact written. Qed.
Print Assumptions C27_writes.
Example C27_example :
  trace (snd (handle_inputs ex_env (mk_opts true false false false) ["d"; "./d/a.py"] (start ex_contents)))
  = [ERead "d/a.py"; EWrite "d/a.py" (ex_new ++ nl); EPrint "reformatted d/a.py (1 changed SQL)";
     ERead "d/b.py"; EPrintExn "d/b.py" (OtherError "TokenError");
     EPrint "1 file reformatted (1 changed SQL queries)."].
Proof. vm_compute. reflexivity. Qed.

(** C28.  Exit status 1 exactly if --check-format was given and a file analysed in the run has a
    query to reformat, or --validate was given and one has an invalid query. *)
Theorem C28_exit_status : forall E O srcs c code w, handle_inputs E O srcs (start c) = (code, w) ->
  (code = 0 \/ code = 1)
  /\ (code = 1 <-> (f_check O = true /\ exists r, In r (results E O c (trace w)) /\ 0 < r_changed r)
                 \/ (f_validate O = true /\ exists r, In r (results E O c (trace w)) /\ 0 < r_invalid r)).
Proof. exact exit_status. Qed.
Print Assumptions C28_exit_status.
(** The command line is refused with status 2, and nothing is done, exactly for exclusive or missing
    options or no input. *)
Theorem C28_usage_errors : forall E O srcs c,
  fst (main E O srcs (start c)) = 2 <->
  (f_format O = true /\ f_check O = true) \/ (f_validate O = true /\ f_verbose O = true)
  \/ (f_format O = false /\ f_check O = false /\ f_validate O = false /\ f_verbose O = false)
  \/ srcs = [].
Proof. exact usage. Qed.
Print Assumptions C28_usage_errors.
(** --verbose-validate alone: status 0 whatever it finds. *)
Theorem C28_verbose_alone : forall E srcs c,
  srcs <> [] -> fst (main E (mk_opts false false false true) srcs (start c)) = 0.
Proof. exact verbose_alone. Qed.
Print Assumptions C28_verbose_alone.
Example C28_example :
  fst (main ex_env (mk_opts false true false false) ["d"] (start ex_contents)) = 1
  /\ fst (main ex_env (mk_opts false false true false) ["d"] (start ex_contents)) = 1
  /\ fst (main ex_env (mk_opts true false false false) ["d"] (start ex_contents)) = 0
  /\ fst (main ex_env (mk_opts false true false false) ["d/b.py"] (start ex_contents)) = 0.
Proof. vm_compute. auto. Qed.

(** C29.  Each absolute path is read at most once, and every file given or found is read. *)
Theorem C29_each_file_once : forall E O srcs c code w, handle_inputs E O srcs (start c) = (code, w) ->
  NoDup (map (abspath E) (reads (trace w)))
  /\ (forall f, In f (reads (trace w)) -> In (Some f) (files E srcs))
  /\ (forall f, In (Some f) (files E srcs) -> exists g, In g (reads (trace w)) /\ abspath E g = abspath E f).
Proof. exact read_once. Qed.
Print Assumptions C29_each_file_once.
Example C29_example :
  files ex_env ["./d/a.py"; "d"; "d"; "zz"] = [Some "./d/a.py"; Some "d/a.py"; Some "d/b.py"; Some "d/a.py"; Some "d/b.py"; None]
  /\ reads (trace (snd (handle_inputs ex_env (mk_opts false true false false) ["./d/a.py"; "d"; "d"; "zz"] (start ex_contents))))
     = ["./d/a.py"; "d/b.py"].
Proof. vm_compute. auto. Qed.

(** C35.  If the analysis of a file fails before writing, the run is the same as one in a world
    without that file, but for the line that reports it. *)
Theorem C35_failing_file_isolated : forall E E' O, same_files E E' ->
  forall srcs srcs' c code w code' w' pre f post e,
  handle_inputs E O srcs (start c) = (code, w) ->
  handle_inputs E' O srcs' (start c) = (code', w') ->
  files E' srcs' = filter (fun x => match x with Some g => negb (str_eqb (abspath E g) (abspath E f)) | None => true end)
                          (files E srcs) ->
  trace w = pre ++ ERead f :: post ->
  analysed E O f (replay E c pre) = Failed e None ->
  exists post', post = complaint f e :: post' /\ trace w' = pre ++ post'
    /\ contents w' = contents w /\ code' = code.
Proof. exact isolated. Qed.
Print Assumptions C35_failing_file_isolated.
Example C35_example :
  analysed ex_env (mk_opts false true false false) "d/b.py" ex_contents = Failed (OtherError "TokenError") None
  /\ files ex_env ["d/a.py"]
     = filter (fun x => match x with Some g => negb (str_eqb (abspath ex_env g) "/d/b.py") | None => true end) (files ex_env ["d"])
  /\ trace (snd (handle_inputs ex_env (mk_opts false true false false) ["d/b.py"; "d"] (start ex_contents)))
     = ERead "d/b.py" :: EPrintExn "d/b.py" (OtherError "TokenError")
       :: trace (snd (handle_inputs ex_env (mk_opts false true false false) ["d/a.py"] (start ex_contents))).
Proof. vm_compute. auto. Qed.

(** C36.  --format, then --check-format with the same inputs: nothing to reformat, status 0 (unless
    --validate asks for more), if every file can be written, its strings are formatted stably and
    the new content is read back as the tokens written. *)
Theorem C36_format_then_check : forall E v w srcs c code1 w1 code2 w2,
  (forall f, In (Some f) (files E srcs) -> write_error E f = None /\ stable_content E (v || w) (c (file_id E f))) ->
  handle_inputs E (mk_opts true false v w) srcs (start c) = (code1, w1) ->
  handle_inputs E (mk_opts false true v w) srcs (start (contents w1)) = (code2, w2) ->
  (forall r, In r (results E (mk_opts false true v w) (contents w1) (trace w2)) -> r_changed r = 0)
  /\ In (EPrint "No file would be reformatted.") (trace w2)
  /\ contents w2 = contents w1
  /\ (v = false -> code2 = 0).
Proof. exact format_then_check. Qed.
Print Assumptions C36_format_then_check.
Example C36_example :
  (forall f, In (Some f) (files ex_env ["d"]) -> write_error ex_env f = None /\ stable_content ex_env false (ex_contents (file_id ex_env f)))
  /\ trace (snd (handle_inputs ex_env (mk_opts false true false false) ["d"]
        (start (contents (snd (handle_inputs ex_env (mk_opts true false false false) ["d"] (start ex_contents)))))))
     = [ERead "d/a.py"; ERead "d/b.py"; EPrintExn "d/b.py" (OtherError "TokenError"); EPrint "No file would be reformatted."].
Proof.
  split; [|vm_compute; reflexivity].
  intros f I. split; [reflexivity|]. vm_compute in I. destruct I as [I|[I|[]]]; injection I as <-.
  - intros ts eos st r G CT CF P. vm_compute in G. injection G as <- <-. vm_compute in CT. injection CT as <-.
    vm_compute in CF. injection CF as <-. split.
    + intros t [<-|[<-|[<-|[]]]] Q; try (vm_compute in Q; discriminate).
      intros v q H. vm_compute in H. injection H as <- <-. split; [|vm_compute; reflexivity].
      eexists. vm_compute. reflexivity.
    + eexists. split; [vm_compute; reflexivity|vm_compute; reflexivity].
  - intros ts eos st r G CT. vm_compute in G. injection G as <- <-. vm_compute in CT. discriminate.
Qed.

(** C37.  The summary lines give the number of files with changes / invalid queries and the sums over
    the files analysed. *)
Theorem C37_totals : forall E O srcs c code w, handle_inputs E O srcs (start c) = (code, w) ->
  let rs := results E O c (trace w) in
  exists body, trace w = body
    ++ (if f_format O || f_check O
        then [EPrint (format_summary (length (filter (fun r => 0 <? r_changed r) rs)) (list_sum (map r_changed rs)) (f_check O))] else [])
    ++ (if f_validate O
        then [EPrint (validation_summary (length (filter (fun r => 0 <? r_invalid r) rs)) (list_sum (map r_invalid rs)))] else []).
Proof. exact totals. Qed.
Print Assumptions C37_totals.
Example C37_example :
  map (fun r => (r_changed r, r_invalid r))
      (results ex_env (mk_opts false true true false) ex_contents
         (trace (snd (handle_inputs ex_env (mk_opts false true true false) ["d"; "./d/a.py"] (start ex_contents)))))
  = [(1, 1)]
  /\ skipn 5 (trace (snd (handle_inputs ex_env (mk_opts false true true false) ["d"; "./d/a.py"] (start ex_contents))))
  = [EPrint "1 file would be reformatted (1 changed SQL queries).";
     EPrint "1 file detected with invalid SQL (1 invalid SQL query)."].
Proof. vm_compute. auto. Qed.
