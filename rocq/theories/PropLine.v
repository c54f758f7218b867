(** C56: the line numbers in the reports of --verbose-validate. *)
From Coq Require Import Sorted.
From Verif Require Import PyStr Ast Validate Api PyTokens PyTokenize FileHandler SpecVal SpecFile SpecRun SpecLine ProofLine ProofLine2.
Local Open Scope str_scope.
Local Open Scope list_scope.

(** For any file, with errors or without: the string tokens stand in it in their order, without overlap, each on the
    line its position names. *)
Theorem C56_tokens : forall word src, located [] src (fst (generate_tokens word src)).
Proof. exact tokens_located. Qed.
Print Assumptions C56_tokens.

(** For any file that is analysed: each reported line is one on which an SQL literal begins, the errors are those of
    this literal, and the lines do not decrease. *)
Theorem C56_file : forall word ord fmt val src r,
  let '(ts, eos) := generate_tokens word src in compute_file_content ord fmt val ts eos = Ok r ->
  Sorted Z.le (map fst (r_locs r)) /\ forall line errs, In (line, errs) (r_locs r) ->
    exists lit, stands src lit line /\ is_select_string lit = true /\ errs = query_errors ord lit /\ errs <> [].
Proof. exact lines_true. Qed.
Print Assumptions C56_file.

(** In any run: a printed line that begins with L names a line of the file read last, as it was when it was read. *)
Theorem C56_printed : forall word E O, gen_tokens E = generate_tokens word ->
  forall srcs c code w pre m post, handle_inputs E O srcs (start c) = (code, w) ->
  trace w = pre ++ EPrint m :: post -> startswith "L" m = true ->
  f_verbose O = true /\ exists pre1 f pre2 lit line, pre = pre1 ++ ERead f :: pre2 /\ reads pre2 = []
    /\ stands (replay E c pre1 (file_id E f)) lit line /\ is_select_string lit = true /\ query_errors (set_order E) lit <> []
    /\ m = "L" ++ str_of_Z line ++ " - " ++ join ", " (query_errors (set_order E) lit).
Proof. exact printed_lines. Qed.
Print Assumptions C56_printed.
(** And each report of a file (C32 says which there are) is printed. *)
Theorem C56_all_printed : forall E O srcs c code w r line errs, handle_inputs E O srcs (start c) = (code, w) -> f_verbose O = true ->
  In r (results E O c (trace w)) -> In (line, errs) (r_locs r) -> In (EPrint ("L" ++ str_of_Z line ++ " - " ++ join ", " errs)) (trace w).
Proof. exact all_printed. Qed.
Print Assumptions C56_all_printed.

Definition ex_plain (c : N) : bool := false.
Definition ex_file : str := "x = '''
select a from t'''
f(""select a limit b"", [
  'select a where 1'])
".
Definition ex_lines : env := {|
  isdir s := false; isfile := endswith ".py"; walk _ := []; abspath s := "/" ++ s;
  file_id s := 1%N; open_error _ := None; gen_tokens := generate_tokens ex_plain; write_error _ := None; set_order x := x |}.
Example C56_example :
  trace (snd (handle_inputs ex_lines (mk_opts false false false true) ["a.py"] (start (fun _ => ex_file))))
  = [ERead "a.py"; EPrint "invalid queries in a.py (2 invalid SQL)"; 
     EPrint "L3 - The column a was not found, argument of LIMIT must not contain variables";
     EPrint "L4 - The column a was not found, The argument of WHERE must be type boolean, not type int"].
Proof. vm_compute. reflexivity. Qed.

(** The lines are those before a --format in the same run: in the new file the literal may be elsewhere. *)
Theorem C56_new_file_refuted : exists src r line errs,
  (let '(ts, eos) := generate_tokens (fun _ => false) src in compute_file_content (fun x => x) true true ts eos = Ok r)
  /\ In (line, errs) (r_locs r)
  /\ forall t, In t (fst (generate_tokens (fun _ => false) (r_content r))) -> t_type t = TString -> fst (t_start t) <> line.
Proof. exact line_moved. Qed.
Print Assumptions C56_new_file_refuted.
