(** Witnesses for C57-C59. *)
From Verif Require Import PyStr Lib Tokeniser Ast Parser Render Validate Api PyTokens FileHandler PyTokenize Args SpecArgs
  SpecVal SpecFile SpecRun SpecModes.
Local Open Scope str_scope.
Local Open Scope list_scope.

Definition one_file : env := {|
  isdir _ := false; isfile := endswith ".py"; walk _ := []; abspath s := "/" ++ s; file_id _ := 1%N; open_error _ := None;
  gen_tokens := generate_tokens (fun _ => false); write_error _ := None; set_order x := x |}.
Definition query_file (_ : N) : str := "x = 'select a from t'
".
(** two names, one file *)
Lemma linked : exists E srcs c, (forall f, write_error E f = None)
  /\ In (EPrint "2 files would be reformatted (2 changed SQL queries).") (trace (snd (program E ("--check-format" :: srcs) (start c))))
  /\ In (EPrint "1 file reformatted (1 changed SQL queries).") (trace (snd (program E ("--format" :: srcs) (start c)))).
Proof.
  exists one_file, ["a.py"; "b.py"], query_file. split; [reflexivity|].
  split; vm_compute; repeat (try (left; reflexivity); right).
Qed.
(** a query that formats but whose validation raises *)
Lemma validation_stops_format : exists E f c,
  writes (trace (snd (program E ["--format"; f] (start c)))) = [f]
  /\ writes (trace (snd (program E ["--format"; "--validate"; f] (start c)))) = [].
Proof.
  exists one_file, "a.py", (fun _ => "x = 'select cast(a as int) from t'
"). split; vm_compute; reflexivity.
Qed.
(** an invalid query next to one that cannot be formatted *)
Lemma format_stops_validation : exists E f c,
  fst (program E ["--validate"; f] (start c)) = 1 /\ fst (program E ["--format"; "--validate"; f] (start c)) = 0.
Proof.
  exists one_file, "a.py", (fun _ => "x = 'select a from t limit b'
y = 'select a from t group by rollup'  # nosqlvalidation
"). split; vm_compute; reflexivity.
Qed.
