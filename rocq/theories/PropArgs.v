(** C55: the command line.  Which arguments make the program do what, for all argument lists; file names stand in one
    block, options may be abbreviated and stand before or behind it, behind -- everything is a file. *)
From Verif Require Import PyStr PyTokens FileHandler Args SpecRun PropRun SpecArgs ProofArgs3 ProofArgs4.
Local Open Scope str_scope.
Local Open Scope list_scope.

(** The arguments are read as files and options exactly if they are a command in the sense of SpecArgs.v. *)
Theorem C55_command : forall argv srcs o, parse_args argv = Parsed srcs o <-> command argv srcs o.
Proof. exact parse_iff. Qed.
Print Assumptions C55_command.
Example C55_command_example :
  parse_args ["--form"; "a.py"; "-"; "--validate"] = Parsed ["a.py"; "-"] (mk_opts true false true false)
  /\ parse_args ["--verb"; "a.py"; "--"; "--format"; "--"] = Parsed ["a.py"; "--format"; "--"] (mk_opts false false false true)
  /\ parse_args ["-1.5"; "-h x.py"; "--ver"] = Quit 2
  /\ parse_args ["--format"; "--check-format"; "a.py"] = Quit 2
  /\ parse_args ["--format"] = Quit 2 /\ parse_args ["a.py"] = Parsed ["a.py"] (mk_opts false false false false)
  /\ parse_args ["--vers"; "--format"; "--check-format"] = Quit 0.
Proof. vm_compute. auto 8. Qed.

(** A run either handles the files of a command that says what to do, or does nothing and ends with status 2, or with
    status 0 after an argument that asks for help or the version. *)
Theorem C55_run : forall E argv w code w', program E argv w = (code, w') ->
  (exists srcs o, command argv srcs o
     /\ (f_format o = true \/ f_check o = true \/ f_validate o = true \/ f_verbose o = true)
     /\ (code, w') = handle_inputs E o srcs w)
  \/ w' = w /\ (code = 2 \/ code = 0 /\ exists pre a post, argv = pre ++ a :: post /\ ~ In "--" pre /\ asks_help a).
Proof. exact run_cases. Qed.
Print Assumptions C55_run.
(** and it handles the files whenever the arguments are such a command. *)
Theorem C55_handled : forall E argv srcs o w, command argv srcs o ->
  f_format o = true \/ f_check o = true \/ f_validate o = true \/ f_verbose o = true ->
  program E argv w = handle_inputs E o srcs w.
Proof. exact run_handled. Qed.
Print Assumptions C55_handled.

(** No file is written unless some argument before any -- is --format or an abbreviation of it. *)
Theorem C55_written : forall E argv c code w, program E argv (start c) = (code, w) ->
  writes (trace w) <> [] \/ contents w <> c ->
  exists pre a post, argv = pre ++ a :: post /\ ~ In "--" pre /\ means a "--format".
Proof. exact written_format. Qed.
Print Assumptions C55_written.

Example C55_run_example :
  fst (program ex_env ["--check-f"; "d"] (start ex_contents)) = 1
  /\ writes (trace (snd (program ex_env ["d"; "--form"] (start ex_contents)))) = ["d/a.py"]
  /\ writes (trace (snd (program ex_env ["--check-f"; "--"; "d"; "--format"] (start ex_contents)))) = []
  /\ program ex_env ["d"] (start ex_contents) = (2, start ex_contents)
  /\ program ex_env ["--format"; "-h"; "--nothing"; "d"] (start ex_contents) = (0, start ex_contents).
Proof. vm_compute. auto 6. Qed.

(** Options can stand before or behind the files. *)
Theorem C55_order : forall t1 f t2 u1 u2, Forall task_word (t1 ++ t2) -> Forall file_word f -> u1 ++ u2 = t1 ++ t2 ->
  parse_args (u1 ++ f ++ u2) = parse_args (t1 ++ f ++ t2).
Proof. exact order. Qed.
Print Assumptions C55_order.
(** Not between them: the files behind the option are refused, nothing is done. *)
Theorem C55_between_refuted : exists t f1 f2, task_word t /\ Forall file_word (f1 ++ f2) /\
  parse_args (t :: f1 ++ f2) = Parsed (f1 ++ f2) (mk_opts true false false false) /\ parse_args (f1 ++ t :: f2) = Quit 2.
Proof. exact between. Qed.
Print Assumptions C55_between_refuted.
