(** C51: outside the SQL strings the file is kept, character by character.  Definitions: SpecSource, SpecFile. *)
From Verif Require Import PyStr Tokeniser Ast Parser Render Validate Api PyTokens FileHandler Grammar SpecVal SpecFile SpecStable SpecSource
  SourceCheck ProofSource ProofSource2 PropFile PropStable.
Local Open Scope str_scope.
Local Open Scope list_scope.

(** The tokens of a file, put together again, are the file. *)
Theorem C51_untokenize : forall src ts, tokens_of_file src ts -> untokenize ts = Ok src.
Proof. exact untokenize_file. Qed.
Print Assumptions C51_untokenize.

(** C51.  The new file is the old one with other texts in the place of SQL strings. *)
Theorem C51_file_kept : forall ord fmt val src ts eos r,
  tokens_of_file src ts -> compute_file_content ord fmt val ts eos = Ok r ->
  exists ts' ws,
    Forall2 (fun t t' => t_type t' = t_type t /\ t_start t' = t_start t /\ t_end t' = t_end t /\
      (t_text t' = t_text t
       \/ (t_type t = TString /\ is_select_string (t_text t) = true
           /\ exists q, handle_sql_string (t_text t) = Ok (t_text t', q)))) ts ts'
    /\ length ws = length (printed ts)
    /\ src = weave ws (printed ts)
    /\ r_content r = weave ws (printed ts')
    /\ r_changed r = differences ts ts'.
Proof. exact file_kept. Qed.
Print Assumptions C51_file_kept.
Theorem C51_unchanged : forall ord fmt val src ts eos r,
  tokens_of_file src ts -> compute_file_content ord fmt val ts eos = Ok r -> r_changed r = 0 -> r_content r = src.
Proof. exact file_unchanged. Qed.
Print Assumptions C51_unchanged.
(** A file and what CPython 3.11 gives as its tokens: blocks, a text of two lines, comments, a call over
    several lines that are indented less than the block, a continued line, two blocks that end. *)
Definition source : str := "class A:
    """"""doc
    string""""""

    def f(self):
        # note
        g(
  ""select  a from t"",\
            b   ,
        )

  # end
x = 1
".
Definition source_tokens : list pytok :=
  [ mk_tok TOther "class" (1, 0)%Z (1, 5)%Z;
    mk_tok TOther "A" (1, 6)%Z (1, 7)%Z;
    mk_tok TOther ":" (1, 7)%Z (1, 8)%Z;
    mk_tok TNewline nl (1, 8)%Z (1, 9)%Z;
    mk_tok TIndent "    " (2, 0)%Z (2, 4)%Z;
    mk_tok TString """""""doc
    string""""""" (2, 4)%Z (3, 13)%Z;
    mk_tok TNewline nl (3, 13)%Z (3, 14)%Z;
    mk_tok TNl nl (4, 0)%Z (4, 1)%Z;
    mk_tok TOther "def" (5, 4)%Z (5, 7)%Z;
    mk_tok TOther "f" (5, 8)%Z (5, 9)%Z;
    mk_tok TOther "(" (5, 9)%Z (5, 10)%Z;
    mk_tok TOther "self" (5, 10)%Z (5, 14)%Z;
    mk_tok TOther ")" (5, 14)%Z (5, 15)%Z;
    mk_tok TOther ":" (5, 15)%Z (5, 16)%Z;
    mk_tok TNewline nl (5, 16)%Z (5, 17)%Z;
    mk_tok TComment "# note" (6, 8)%Z (6, 14)%Z;
    mk_tok TNl nl (6, 14)%Z (6, 15)%Z;
    mk_tok TIndent "        " (7, 0)%Z (7, 8)%Z;
    mk_tok TOther "g" (7, 8)%Z (7, 9)%Z;
    mk_tok TOther "(" (7, 9)%Z (7, 10)%Z;
    mk_tok TNl nl (7, 10)%Z (7, 11)%Z;
    mk_tok TString """select  a from t""" (8, 2)%Z (8, 20)%Z;
    mk_tok TOther "," (8, 20)%Z (8, 21)%Z;
    mk_tok TOther "b" (9, 12)%Z (9, 13)%Z;
    mk_tok TOther "," (9, 16)%Z (9, 17)%Z;
    mk_tok TNl nl (9, 17)%Z (9, 18)%Z;
    mk_tok TOther ")" (10, 8)%Z (10, 9)%Z;
    mk_tok TNewline nl (10, 9)%Z (10, 10)%Z;
    mk_tok TNl nl (11, 0)%Z (11, 1)%Z;
    mk_tok TComment "# end" (12, 2)%Z (12, 7)%Z;
    mk_tok TNl nl (12, 7)%Z (12, 8)%Z;
    mk_tok TDedent "" (13, 0)%Z (13, 0)%Z;
    mk_tok TDedent "" (13, 0)%Z (13, 0)%Z;
    mk_tok TOther "x" (13, 0)%Z (13, 1)%Z;
    mk_tok TOther "=" (13, 2)%Z (13, 3)%Z;
    mk_tok TOther "1" (13, 4)%Z (13, 5)%Z;
    mk_tok TNewline nl (13, 5)%Z (13, 6)%Z;
    mk_tok TEnd "" (14, 0)%Z (14, 0)%Z].
Example C51_example : tokens_of_file source source_tokens
  /\ on_ok r_content (compute_file_content (fun x => x) true true source_tokens None) = Ok "class A:
    """"""doc
    string""""""

    def f(self):
        # note
        g(
  """"""
SELECT a
FROM t
"""""",\
            b   ,
        )

  # end
x = 1
".
Proof. split; [apply fileb_ok|]; vm_compute; reflexivity. Qed.

(** The new file is again one whose tokens are those that were written, with other positions. *)
Theorem C51_new_file : forall ord fmt val src ts eos st r, tokens_of_file src ts ->
  compute_tokens ord fmt val ts eos = Ok st -> compute_file_content ord fmt val ts eos = Ok r ->
  exists ts2, tokens_of_file (r_content r) ts2
    /\ map (fun t => (t_type t, t_text t)) ts2 = map (fun t => (t_type t, t_text t)) (c_tokens st).
Proof. exact new_file. Qed.
Print Assumptions C51_new_file.
(** If the SQL strings hold statements of the fragment, formatting these tokens changes nothing more. *)
Theorem C51_formatted_twice : forall ord val src ts eos r, tokens_of_file src ts -> (forall t, In t ts -> fragment_literal t) ->
  compute_file_content ord true val ts eos = Ok r ->
  exists ts2, tokens_of_file (r_content r) ts2
    /\ forall ord2 eos2 r2, compute_file_content ord2 true val ts2 eos2 = Ok r2 ->
       r_changed r2 = 0 /\ r_content r2 = r_content r.
Proof. exact formatted_twice. Qed.
Print Assumptions C51_formatted_twice.
Example C51_twice_example : (forall t, In t source_tokens -> fragment_literal t)
  /\ on_ok r_changed (compute_file_content (fun x => x) true true source_tokens None) = Ok 1.
Proof.
  split; [|vm_compute; reflexivity]. intros t I Q. unfold source_tokens in I. cbn [In] in I.
  repeat (destruct I as [<-|I]; [try (vm_compute in Q; discriminate Q)|]); [|destruct I].
  exists "", """", "select  a from t". eexists. exists ("SELECT a" ++ nl ++ "FROM t").
  split; [reflexivity|]. split; [cbn; auto|]. split; [cbn; auto|]. split; [intros _ c r E; injection E as <- _; discriminate|].
  split; [vm_compute; reflexivity|]. vm_compute. auto.
Qed.

(** With tabs between tokens, or blanks in front of a backslash, it is not so: even a file without SQL is
    put together with other white space. *)
Theorem C51_white_space_refuted : exists src ts r, tokens_of_any_file src ts
  /\ compute_file_content (fun x => x) true false ts None = Ok r /\ r_changed r = 0 /\ r_content r <> src.
Proof. exact white_space_lost. Qed.
Print Assumptions C51_white_space_refuted.
(** [x =] tab ['select  a' + \] new line [  y] *)
Example C51_white_space_example :
  on_ok r_content (compute_file_content (fun x => x) true false
   [mk_tok TOther "x" (1, 0)%Z (1, 1)%Z; mk_tok TOther "=" (1, 2)%Z (1, 3)%Z; mk_tok TString "'select  a'" (1, 4)%Z (1, 15)%Z;
    mk_tok TOther "+" (1, 16)%Z (1, 17)%Z; mk_tok TOther "y" (2, 2)%Z (2, 3)%Z;
    mk_tok TNewline nl (2, 3)%Z (2, 4)%Z; mk_tok TEnd "" (3, 0)%Z (3, 0)%Z] None)
  = Ok ("x = 'SELECT a' +\" ++ nl ++ "  y" ++ nl).
Proof. vm_compute. reflexivity. Qed.
