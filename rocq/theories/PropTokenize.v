(** C53: files as Python's tokenizer reads them.  Definitions: SpecTokenize, SpecSource, SpecFile, PyTokenize. *)
From Verif Require Import PyStr Tokeniser Ast Parser Render Validate Api PyTokens FileHandler Grammar SpecVal SpecFile SpecRun SpecRound SpecStable SpecSource
  PyTokenize SpecTokenize ProofTokenize6 PropFile PropRun PropStable PropSource.
Local Open Scope str_scope.
Local Open Scope list_scope.

(** Which characters beyond ASCII belong to words; the theorems hold for any choice *)
Definition ex_word (c : N) : bool := N.eqb c 233.

(** C53.  The tokens found in an ordinary file describe it: the hypothesis of C51 holds for these files,
    and putting the tokens together gives the file. *)
Theorem C53_described : forall word src, ordinary word src = true ->
  exists ts, generate_tokens word src = (ts, None) /\ tokens_of_file src ts /\ untokenize ts = Ok src.
Proof. exact ordinary_described. Qed.
Print Assumptions C53_described.
Example C53_described_example : ordinary ex_word source = true /\ generate_tokens ex_word source = (source_tokens, None).
Proof. vm_compute. auto. Qed.
(** tabs and continued lines in strings and comments are no obstacle; tabs between the tokens are *)
Example C53_tabs_example :
  ordinary ex_word ([120; 32; 61; 32; 39; 9; 97; 32; 92; 10; 98; 39; 32; 35; 9; 10])%N = true
  /\ fst (generate_tokens ex_word ([120; 32; 61; 32; 39; 9; 97; 32; 92; 10; 98; 39; 32; 35; 9; 10])%N)
     = [mk_tok TOther "x" (1, 0)%Z (1, 1)%Z; mk_tok TOther "=" (1, 2)%Z (1, 3)%Z;
        mk_tok TString [39; 9; 97; 32; 92; 10; 98; 39]%N (1, 4)%Z (2, 2)%Z; mk_tok TComment [35; 9]%N (2, 3)%Z (2, 5)%Z;
        mk_tok TNewline [10]%N (2, 5)%Z (2, 6)%Z; mk_tok TEnd [] (3, 0)%Z (3, 0)%Z]
  /\ ordinary ex_word ([120; 9; 61; 32; 49; 10])%N = false.
Proof. vm_compute. auto. Qed.

(** C53.  If every SQL string is rewritten to one literal (C43 says when), the new content is read without
    error as the tokens that were written: types and texts, in order. *)
Theorem C53_read_back : forall word ord fmt val src ts eos st r,
  ordinary word src = true -> generate_tokens word src = (ts, eos) ->
  compute_tokens ord fmt val ts eos = Ok st -> compute_file_content ord fmt val ts eos = Ok r ->
  (forall t, In t ts -> sql_string t = true -> one_literal (rewritten (t_text t)) = true) ->
  exists ts2, generate_tokens word (r_content r) = (ts2, None)
    /\ map (fun t => (t_type t, t_text t)) ts2 = map (fun t => (t_type t, t_text t)) (c_tokens st)
    /\ existsb fst (fst (tokenize word (r_content r))) = false.
Proof. exact new_content_read. Qed.
Print Assumptions C53_read_back.
Example C53_read_back_example :
  forallb (fun t => negb (sql_string t) || one_literal (rewritten (t_text t))) source_tokens = true
  /\ existsb sql_string source_tokens = true
  /\ on_ok r_content (compute_file_content (fun x => x) true true source_tokens None)
     = Ok "class A:
    """"""doc
    string""""""

    def f(self):
        # note
        g(
  """"""
SELECT a
FROM t
"""""",\
            b   ,
        )

  # end
x = 1
".
Proof. vm_compute. auto. Qed.
(** It depends on the texts of the queries: here the tokenizer finds an ERRORTOKEN in the new content. *)
Theorem C53_any_query_refuted : exists src ts r, ordinary ex_word src = true /\ generate_tokens ex_word src = (ts, None)
  /\ compute_file_content (fun x => x) true false ts None = Ok r
  /\ existsb fst (fst (tokenize ex_word (r_content r))) = true.
Proof. exact query_breaks_file. Qed.
Print Assumptions C53_any_query_refuted.

(** C53.  --format, then --check-format, for ordinary files whose SQL strings are simple queries: nothing is
    left to be reformatted, and no file changes any more. *)
Theorem C53_format_then_check : forall word E v w srcs c code1 w1 code2 w2,
  gen_tokens E = generate_tokens word ->
  (forall f, In (Some f) (files E srcs) -> write_error E f = None /\ ordinary word (c (file_id E f)) = true
     /\ forall t, In t (fst (generate_tokens word (c (file_id E f)))) -> simple_query t) ->
  handle_inputs E (mk_opts true false v w) srcs (start c) = (code1, w1) ->
  handle_inputs E (mk_opts false true v w) srcs (start (contents w1)) = (code2, w2) ->
  (forall r, In r (results E (mk_opts false true v w) (contents w1) (trace w2)) -> r_changed r = 0)
  /\ In (EPrint "No file would be reformatted.") (trace w2)
  /\ contents w2 = contents w1
  /\ (v = false -> code2 = 0).
Proof. exact format_then_check_files. Qed.
Print Assumptions C53_format_then_check.
Definition ex_files : env := {|
  isdir s := str_eqb s "d"; isfile := endswith ".py"; walk _ := ["d/a.py"; "d/b.py"; "d/n.txt"]; abspath s := "/" ++ s;
  file_id s := if endswith "a.py" s then 1%N else 2%N; open_error _ := None; gen_tokens := generate_tokens ex_word;
  write_error _ := None; set_order x := x |}.
Definition ex_sources (k : N) : str := if N.eqb k 1 then source else "x = f'select a, {b} from t where c = 1'
".
Definition tree_of (s : str) : node := match parse_sql s with Ok n => n | Err _ => NNull end.
Example C53_format_then_check_example :
  (forall f, In (Some f) (files ex_files ["d"]) -> write_error ex_files f = None /\ ordinary ex_word (ex_sources (file_id ex_files f)) = true
     /\ forall t, In t (fst (generate_tokens ex_word (ex_sources (file_id ex_files f)))) -> simple_query t)
  /\ trace (snd (handle_inputs ex_files (mk_opts true false false false) ["d"] (start ex_sources)))
     = [ERead "d/a.py"; EWrite "d/a.py" "class A:
    """"""doc
    string""""""

    def f(self):
        # note
        g(
  """"""
SELECT a
FROM t
"""""",\
            b   ,
        )

  # end
x = 1
"; EPrint "reformatted d/a.py (1 changed SQL)"; ERead "d/b.py"; EWrite "d/b.py" "x = f'''
SELECT
 a,
 {b}
FROM t
WHERE c = 1
'''
"; EPrint "reformatted d/b.py (1 changed SQL)"; EPrint "2 files reformatted (2 changed SQL queries)."].
Proof.
  split; [|vm_compute; reflexivity]. intros f I. split; [reflexivity|]. vm_compute in I. destruct I as [I|[I|[]]]; injection I as <-.
  - split; [vm_compute; reflexivity|]. intros t I Q.
    assert (E : t = mk_tok TString """select  a from t""" (8, 2)%Z (8, 20)%Z).
    { assert (G : fst (generate_tokens ex_word (ex_sources (file_id ex_files "d/a.py"))) = source_tokens) by (vm_compute; reflexivity).
      rewrite G in I. unfold source_tokens in I. cbn [In] in I.
      repeat (destruct I as [<-|I]; [try (vm_compute in Q; discriminate Q); try reflexivity|]). destruct I. }
    subst t. clear I Q. exists "", """", "select  a from t", (tree_of "select  a from t"). eexists. split; [reflexivity|]. split; [unfold legal_prefix; cbn; auto|]. split; [unfold legal_quote; cbn; auto|].
    split; [vm_compute; intuition discriminate|]. split; [vm_compute; intuition discriminate|]. split; [vm_compute; reflexivity|].
    split; [vm_compute; reflexivity|]. split; [vm_compute; repeat constructor|]. vm_compute. reflexivity.
  - split; [vm_compute; reflexivity|]. intros t I Q.
    assert (E : t = mk_tok TString "f'select a, {b} from t where c = 1'" (1, 4)%Z (1, 39)%Z).
    { assert (G : fst (generate_tokens ex_word (ex_sources (file_id ex_files "d/b.py")))
        = [mk_tok TOther "x" (1, 0)%Z (1, 1)%Z; mk_tok TOther "=" (1, 2)%Z (1, 3)%Z; mk_tok TString "f'select a, {b} from t where c = 1'" (1, 4)%Z (1, 39)%Z;
           mk_tok TNewline nl (1, 39)%Z (1, 40)%Z; mk_tok TEnd "" (2, 0)%Z (2, 0)%Z]) by (vm_compute; reflexivity).
      rewrite G in I. cbn [In] in I.
      repeat (destruct I as [<-|I]; [try (vm_compute in Q; discriminate Q); try reflexivity|]). destruct I. }
    subst t. clear I Q. exists "f", "'", "select a, {b} from t where c = 1", (tree_of "select a, {b} from t where c = 1"). eexists. split; [reflexivity|]. split; [unfold legal_prefix; cbn; auto|]. split; [unfold legal_quote; cbn; auto|].
    split; [vm_compute; intuition discriminate|]. split; [vm_compute; intuition discriminate|]. split; [vm_compute; reflexivity|].
    split; [vm_compute; reflexivity|]. split; [vm_compute; repeat constructor|]. vm_compute. reflexivity.
Qed.

(** Reading a file as tokens ends, with the tokens or with one of two exceptions. *)
Theorem C53_exceptions : forall word s ts e, generate_tokens word s = (ts, Some e) -> e = TokenError \/ e = IndentationError.
Proof. exact tokenize_raises. Qed.
Print Assumptions C53_exceptions.
Example C53_exceptions_example :
  snd (generate_tokens ex_word "x = (") = Some TokenError /\ snd (generate_tokens ex_word "if x:
    y
  z
") = Some IndentationError.
Proof. vm_compute. auto. Qed.
