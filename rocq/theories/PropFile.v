(** Properties of one Python file: C30-C34, C38.  Definitions: SpecFile. *)
From Verif Require Import PyStr Tokeniser Ast Parser Render Validate Api PyTokens FileHandler SpecVal SpecFile ProofFile ProofFile2 ProofFile3.
Local Open Scope str_scope.
Local Open Scope list_scope.

(** Apply a function to a result *)
Definition on_ok {A B} (f : A -> B) (x : R A) : R B := match x with Ok a => Ok (f a) | Err e => Err e end.

(** The tokens of [a = "select x from t limit y"  # note], next line [b = 1] *)
Definition sample (note : str) : list pytok :=
  [mk_tok TOther "a" (1, 0)%Z (1, 1)%Z; mk_tok TOther "=" (1, 2)%Z (1, 3)%Z;
   mk_tok TString """select x from t limit y""" (1, 4)%Z (1, 29)%Z;
   mk_tok TComment note (1, 31)%Z (1, 31 + Z.of_nat (length note))%Z;
   mk_tok TNewline nl (1, 31 + Z.of_nat (length note))%Z (1, 32 + Z.of_nat (length note))%Z;
   mk_tok TOther "b" (2, 0)%Z (2, 1)%Z; mk_tok TOther "=" (2, 2)%Z (2, 3)%Z;
   mk_tok TOther "1" (2, 4)%Z (2, 5)%Z; mk_tok TNewline nl (2, 5)%Z (2, 6)%Z;
   mk_tok TEnd "" (3, 0)%Z (3, 0)%Z].

(** C30.  The new file has the old tokens at the old places with the old white space between them;
    only texts of SQL strings may differ, and then they are the formatted form. *)
Theorem C30_only_sql_strings_change : forall ord fmt val ts eos r,
  compute_file_content ord fmt val ts eos = Ok r ->
  exists ts' ws,
    Forall2 (fun t t' => t_type t' = t_type t /\ t_start t' = t_start t /\ t_end t' = t_end t /\
      (t_text t' = t_text t
       \/ (t_type t = TString /\ is_select_string (t_text t) = true
           /\ exists q, handle_sql_string (t_text t) = Ok (t_text t', q)))) ts ts'
    /\ length ws = length (printed ts)
    /\ untokenize ts = Ok (weave ws (printed ts))
    /\ r_content r = weave ws (printed ts')
    /\ r_changed r = differences ts ts'.
Proof. exact only_sql_strings. Qed.
Print Assumptions C30_only_sql_strings_change.
(** With formatting on, an unprotected SQL string does get its formatted form. *)
Theorem C30_sql_string_formatted : forall ord fmt val a t m x b eos s, fmt = true ->
  compute_tokens ord fmt val (a ++ t :: m ++ x :: b) eos = Ok s ->
  t_type t = TString -> is_select_string (t_text t) = true ->
  (forall y, In y m -> t_type y <> TComment /\ t_type y <> TString /\ t_type y <> TEnd) ->
  (t_type x = TComment \/ t_type x = TString \/ t_type x = TEnd) -> contains "nosqlformat" (t_text x) = false ->
  exists v q, handle_sql_string (t_text t) = Ok (v, q)
    /\ nth_error (c_tokens s) (length a)
       = Some (mk_tok (t_type t) v (t_start t) (t_end t)).
Proof. exact formatted_string. Qed.
Print Assumptions C30_sql_string_formatted.
Example C30_example :
  on_ok r_content (compute_file_content (fun x => x) true true (sample "# hi") None)
  = Ok ("a = """"""" ++ nl ++ "SELECT x" ++ nl ++ "FROM t" ++ nl ++ "LIMIT y" ++ nl ++ """""""  # hi" ++ nl ++ "b = 1" ++ nl).
Proof. vm_compute. reflexivity. Qed.

(** C31.  A string followed by a comment with [nosqlformat], no string between, is left as it is. *)
Theorem C31_nosqlformat_protects : forall ord fmt val a t m x b eos s,
  compute_tokens ord fmt val (a ++ t :: m ++ x :: b) eos = Ok s ->
  (forall y, In y m -> t_type y <> TComment /\ t_type y <> TString /\ t_type y <> TEnd) ->
  t_type x = TComment -> contains "nosqlformat" (t_text x) = true ->
  nth_error (c_tokens s) (length a) = Some t.
Proof. exact nosqlformat. Qed.
Print Assumptions C31_nosqlformat_protects.
Example C31_example :
  on_ok (fun s => (r_changed s, r_invalid s)) (compute_file_content (fun x => x) true true (sample "# nosqlformat") None)
  = Ok (0, 1)
  /\ on_ok (fun s => (r_changed s, r_invalid s)) (compute_file_content (fun x => x) true true (sample "# hi") None)
  = Ok (1, 1).
Proof. vm_compute. auto. Qed.

(** C32.  The reports are exactly those of [reports]: for each SQL string whose deciding token does
    not say [nosqlvalidation], its line and errors if it has any. *)
Theorem C32_reports : forall ord fmt val ts eos r, compute_file_content ord fmt val ts eos = Ok r ->
  r_locs r = reports ord val ts /\ r_invalid r = length (reports ord val ts).
Proof. exact reports_exact. Qed.
Print Assumptions C32_reports.
(** A string protected by [nosqlvalidation] does not count: put any other text in its place and the
    number of invalid queries and their list stay the same. *)
Theorem C32_nosqlvalidation_protects : forall ord fmt val a t m x b eos s v s',
  compute_tokens ord fmt val (a ++ t :: m ++ x :: b) eos = Ok s ->
  (forall y, In y m -> t_type y <> TComment /\ t_type y <> TString /\ t_type y <> TEnd) ->
  t_type x = TComment -> contains "nosqlvalidation" (t_text x) = true ->
  contains "nosqlvalidation" v = contains "nosqlvalidation" (t_text t) ->
  compute_tokens ord fmt val (a ++ mk_tok (t_type t) v (t_start t) (t_end t) :: m ++ x :: b) eos = Ok s' ->
  c_invalid s' = c_invalid s /\ c_locs s' = c_locs s.
Proof. exact nosqlvalidation. Qed.
Print Assumptions C32_nosqlvalidation_protects.
Example C32_example :
  on_ok (fun s => (r_changed s, r_invalid s)) (compute_file_content (fun x => x) true true (sample "# nosqlvalidation") None)
  = Ok (1, 0)
  /\ on_ok r_locs (compute_file_content (fun x => x) true true (sample "# hi") None)
  = Ok [(1%Z, ["argument of LIMIT must not contain variables"])].
Proof. vm_compute. auto. Qed.

(** C33.  The reported number of changes counts the tokens whose text differs; 0 means the tokens
    are the original ones. *)
Theorem C33_change_count : forall ord fmt val ts eos r s,
  compute_tokens ord fmt val ts eos = Ok s -> compute_file_content ord fmt val ts eos = Ok r ->
  r_changed r = differences ts (c_tokens s) /\ (r_changed r = 0 -> c_tokens s = ts).
Proof. exact change_count. Qed.
Print Assumptions C33_change_count.
Example C33_example : exists s r,
  compute_tokens (fun x => x) true false (sample "# hi") None = Ok s
  /\ compute_file_content (fun x => x) true false (sample "# hi") None = Ok r
  /\ differences (sample "# hi") (c_tokens s) = 1 /\ r_changed r = 1.
Proof. eexists _, _. vm_compute. auto. Qed.

(** C34.  A literal with a legal prefix and legal quotes around a body is never refused for its
    quoting, and gets the formatted query between the same prefix and the same kind of quote,
    tripled exactly when several lines have to stand in one-line quotes. *)
Theorem C34_prefix_and_quotes_kept : forall p q body, legal_prefix p -> legal_quote q -> fits q body ->
  exists Q, q_sql Q = body
  /\ handle_sql_string (p ++ q ++ body ++ q)
     = match format_sql body with Ok sql => Ok (literal p q sql, Q) | Err e => Err e end.
Proof. exact handle_literal. Qed.
Print Assumptions C34_prefix_and_quotes_kept.
Example C34_example : legal_prefix "Rb" /\ legal_quote "'" /\ fits "'" "select a"
  /\ on_ok fst (handle_sql_string "Rb'select  a'") = Ok "Rb'SELECT a'"
  /\ on_ok fst (handle_sql_string "Rb'select a from b'")
     = Ok ("Rb'''" ++ nl ++ "SELECT a" ++ nl ++ "FROM b" ++ nl ++ "'''").
Proof.
  split; [cbn; auto 10|]. split; [cbn; auto 10|]. split; [|vm_compute; auto].
  intros _ c r E. injection E as <- _. discriminate.
Qed.

(** C38.  A string counts as SQL exactly if, after blanks, newlines, quotes and letters u, f, b, r in
    any case, the word [select] follows, up to the next blank or the end of its line. *)
Theorem C38_select_string : forall s, is_select_string s = true <->
  exists pre w rest, s = pre ++ w ++ rest
  /\ (forall c, In c pre -> In (lower_c c) (" '""`ufbr" ++ nl))
  /\ lower w = "select"
  /\ (rest = [] \/ exists c r, rest = c :: r /\ (c = 32%N \/ is_linebreak c = true)).
Proof. exact select_string. Qed.
Print Assumptions C38_select_string.
(** So letters of the text itself can be skipped, and WITH statements never count. *)
Example C38_example :
  is_select_string "'bur SELECT x'" = true /\ is_select_string "f"" select""" = false
  /\ is_select_string "'with a as (select 1) select 2'" = false
  /\ is_select_string "'selection'" = false.
Proof. vm_compute. auto. Qed.
