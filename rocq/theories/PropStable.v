(** C36 for files with statements of the fragment; C43, C44: what becomes of the Python literal.
    Definitions: SpecStable. *)
From Verif Require Import PyStr Tokeniser Ast Parser Render Validate Api PyTokens FileHandler Grammar SpecVal SpecFile SpecRun
  SpecRound SpecStable ProofStable PropRun.
Local Open Scope str_scope.
Local Open Scope list_scope.

(** C36.  A literal around a statement of the fragment is rewritten to a literal that is left as it is. *)
Theorem C36_literal_stable : forall p q body n, legal_prefix p -> legal_quote q -> fits q body
  -> parse_sql body = Ok n -> statement n = true ->
  exists f Q Q', format_sql body = Ok f /\ handle_sql_string (p ++ q ++ body ++ q) = Ok (literal p q f, Q)
    /\ handle_sql_string (literal p q f) = Ok (literal p q f, Q').
Proof. exact fragment_stable. Qed.
Print Assumptions C36_literal_stable.
(** --format, then --check-format, for files whose SQL strings hold statements of the fragment and
    that Python reads back as the tokens written. *)
Theorem C36_format_then_check_fragment : forall E v w srcs c code1 w1 code2 w2,
  (forall f, In (Some f) (files E srcs) -> write_error E f = None /\ sound_content E (v || w) (c (file_id E f))) ->
  handle_inputs E (mk_opts true false v w) srcs (start c) = (code1, w1) ->
  handle_inputs E (mk_opts false true v w) srcs (start (contents w1)) = (code2, w2) ->
  (forall r, In r (results E (mk_opts false true v w) (contents w1) (trace w2)) -> r_changed r = 0)
  /\ In (EPrint "No file would be reformatted.") (trace w2)
  /\ contents w2 = contents w1
  /\ (v = false -> code2 = 0).
Proof. exact format_then_check_fragment. Qed.
Print Assumptions C36_format_then_check_fragment.

Definition new_literal (t : str) : R str := rbind (handle_sql_string t) (fun x => Ok (fst x)).
Definition ex_body : str := "select a from t limit b".
Definition ex_tree : node := match parse_sql ex_body with Ok n => n | Err _ => NNull end.
Example C36_example_literal : legal_prefix "Rf" /\ legal_quote "'" /\ fits "'" ex_body
  /\ parse_sql ex_body = Ok ex_tree /\ statement ex_tree = true
  /\ new_literal ("Rf'" ++ ex_body ++ "'") = Ok ("Rf" ++ ex_new)
  /\ new_literal ("Rf" ++ ex_new) = Ok ("Rf" ++ ex_new).
Proof.
  split; [cbn; tauto|]. split; [cbn; tauto|]. split; [intros _ c r E; injection E as <- _; discriminate|].
  vm_compute. auto.
Qed.
Example C36_example_fragment : forall f, In (Some f) (files ex_env ["d"]) ->
  write_error ex_env f = None /\ sound_content ex_env false (ex_contents (file_id ex_env f)).
Proof.
  intros f I. split; [reflexivity|]. vm_compute in I. destruct I as [I|[I|[]]]; injection I as <-.
  - intros ts eos G. vm_compute in G. injection G as <- <-. split.
    + intros t [<-|[<-|[<-|[]]]] Q; try (vm_compute in Q; discriminate).
      exists "", "'''", ex_body, ex_tree, ("SELECT a" ++ nl ++ "FROM t" ++ nl ++ "LIMIT b").
      split; [reflexivity|]. split; [cbn; auto|]. split; [cbn; auto|]. split; [intros X; discriminate X|].
      vm_compute. auto.
    + intros st r CT CF P. vm_compute in CT. injection CT as <-. vm_compute in CF. injection CF as <-.
      eexists. split; [vm_compute; reflexivity|vm_compute; reflexivity].
  - intros ts eos G. vm_compute in G. injection G as <- <-. split; [intros t []|].
    intros st r CT. vm_compute in CT. discriminate.
Qed.

(** C43.  A literal around a statement of the fragment, whose text has neither the quote character of
    the literal nor a backslash, is rewritten to one Python literal. *)
Theorem C43_one_literal : forall p q body n ts, legal_prefix p -> legal_quote q -> ~ In (quote_of q) body -> ~ In 92%N body ->
  to_tokens body = (ts, None) -> statement n = true -> Forall2 reads (entries n) ts ->
  exists s Q, handle_sql_string (p ++ q ++ body ++ q) = Ok (s, Q) /\ python_literal s = true.
Proof. exact rewritten_handled. Qed.
Print Assumptions C43_one_literal.
Example C43_example : legal_prefix "f" /\ legal_quote "'" /\ ~ In (quote_of "'") ex_body /\ ~ In 92%N ex_body
  /\ snd (to_tokens ex_body) = None /\ statement ex_tree = true
  /\ Forall2 reads (entries ex_tree) (fst (to_tokens ex_body))
  /\ python_literal ("f'" ++ ex_body ++ "'") = true
  /\ rbind (new_literal ("f'" ++ ex_body ++ "'")) (fun s => Ok (python_literal s)) = Ok true.
Proof.
  split; [cbn; tauto|]. split; [cbn; tauto|].
  split; [vm_compute; intuition discriminate|]. split; [vm_compute; intuition discriminate|].
  split; [vm_compute; reflexivity|]. split; [vm_compute; reflexivity|].
  split; [vm_compute; repeat constructor|]. vm_compute. auto.
Qed.
(** With the quote character in the text, the file is no longer Python: the blank before the closing
    quotes is lost. *)
Theorem C43_any_text_refuted : exists t s Q, python_literal t = true /\ handle_sql_string t = Ok (s, Q) /\ python_literal s = false.
Proof.
  exists "'''select 'a' '''", "'''SELECT 'a''''".
  destruct (handle_sql_string "'''select 'a' '''") as [[s Q]|] eqn:H; [|vm_compute in H; discriminate].
  exists Q. split; [vm_compute; reflexivity|]. split; [|vm_compute; reflexivity].
  assert (E : new_literal "'''select 'a' '''" = Ok "'''SELECT 'a''''") by (vm_compute; reflexivity).
  unfold new_literal in E. rewrite H in E. cbn [rbind fst] in E. injection E as E. f_equal. f_equal. exact E.
Qed.
Print Assumptions C43_any_text_refuted.

(** C44.  Replacement fields of f-strings that are one token of the SQL text and no function name stay
    as they are, in the same order. *)
Theorem C44_fields_kept : forall n q ts, statement n = true -> to_tokens q = (ts, None) -> Forall2 reads (entries n) ts ->
  (forall k, In (Word k) (entries n) -> has_brace k = false) ->
  exists f ts', format_sql q = Ok f /\ to_tokens f = (ts', None) /\ filter has_brace ts' = filter has_brace ts.
Proof. exact fields_kept. Qed.
Print Assumptions C44_fields_kept.
Definition ex_fields : str := "select {Cols}, {t.A} x from {Table} where {Cond} and b in ({ids})".
Definition ex_fields_tree : node := match parse_sql ex_fields with Ok n => n | Err _ => NNull end.
Definition words (l : list entry) : list str := flat_map (fun e => match e with Word k => [k] | _ => [] end) l.
Example C44_example : statement ex_fields_tree = true /\ snd (to_tokens ex_fields) = None
  /\ Forall2 reads (entries ex_fields_tree) (fst (to_tokens ex_fields))
  /\ forallb (fun k => negb (has_brace k)) (words (entries ex_fields_tree)) = true
  /\ filter has_brace (fst (to_tokens ex_fields)) = ["{Cols}"; "{t"; "A}"; "{Table}"; "{Cond}"; "{ids}"].
Proof.
  split; [vm_compute; reflexivity|]. split; [vm_compute; reflexivity|].
  split; [vm_compute; repeat constructor|]. vm_compute. auto.
Qed.
(** Fields with calls, format specifications or conditions are changed or cut. *)
Theorem C44_any_field_refuted :
  format_sql "select {fmt(x)} from {t}" = Ok ("SELECT {FMT(x) }" ++ nl ++ "FROM {t}")
  /\ format_sql "select {y:>10} from {t}" = Ok ("SELECT {y: > 10}" ++ nl ++ "FROM {t}")
  /\ format_sql "select {e if g else h} from {t}" = Ok ("SELECT {e if" ++ nl ++ "FROM {t}").
Proof. vm_compute. auto. Qed.
Print Assumptions C44_any_field_refuted.

(** C45.  Parameters of a query (?, :name, $1, %s, @name) stay as they are, in the same order. *)
Theorem C45_parameters_kept : forall n q ts, statement n = true -> to_tokens q = (ts, None) -> Forall2 reads (entries n) ts ->
  (forall k, In (Word k) (entries n) -> parameter k = false) ->
  exists f ts', format_sql q = Ok f /\ to_tokens f = (ts', None) /\ filter parameter ts' = filter parameter ts.
Proof. exact parameters_kept. Qed.
Print Assumptions C45_parameters_kept.
Definition ex_params : str := "select a from t where b = %s and c In (?, :X) and d < @Day limit $1".
Definition ex_params_tree : node := match parse_sql ex_params with Ok n => n | Err _ => NNull end.
Example C45_example : statement ex_params_tree = true /\ snd (to_tokens ex_params) = None
  /\ Forall2 reads (entries ex_params_tree) (fst (to_tokens ex_params))
  /\ forallb (fun k => negb (parameter k)) (words (entries ex_params_tree)) = true
  /\ filter parameter (fst (to_tokens ex_params)) = ["%s"; "?"; ":X"; "@Day"; "$1"].
Proof.
  split; [vm_compute; reflexivity|]. split; [vm_compute; reflexivity|].
  split; [vm_compute; repeat constructor|]. vm_compute. auto.
Qed.
(** A parameter %(name)s counts as a call; the rest of the query is dropped. *)
Theorem C45_named_refuted :
  format_sql "select a from t where b = %(name)s and c = 2 order by a"
  = Ok ("SELECT a" ++ nl ++ "FROM t" ++ nl ++ "WHERE b = %(name)").
Proof. vm_compute. reflexivity. Qed.
Print Assumptions C45_named_refuted.

(** C46.  The string that the rewritten literal stands for has the same tokens as before, up to the case
    of keywords and function names and leading zeros of numbers, and is formatted the same. *)
Theorem C46_value_kept : forall p q body n ts, legal_prefix p -> legal_quote q -> ~ In (quote_of q) body -> ~ In 92%N body ->
  (length q = 1 -> ~ In 10%N body) ->
  to_tokens body = (ts, None) -> statement n = true -> Forall2 reads (entries n) ts ->
  exists s Q v ts', python_value (p ++ q ++ body ++ q) = Some body
    /\ handle_sql_string (p ++ q ++ body ++ q) = Ok (s, Q) /\ python_value s = Some v
    /\ to_tokens v = (ts', None) /\ Forall2 alike ts ts' /\ format_sql v = format_sql body.
Proof. exact value_kept. Qed.
Print Assumptions C46_value_kept.
Example C46_example : (length "'" = 1 -> ~ In 10%N ex_body)
  /\ python_value ("u'" ++ ex_body ++ "'") = Some ex_body
  /\ rbind (new_literal ("u'" ++ ex_body ++ "'")) (fun s => Ok (python_value s))
     = Ok (Some (nl ++ "SELECT a" ++ nl ++ "FROM t" ++ nl ++ "LIMIT b" ++ nl)).
Proof. split; [intros _; vm_compute; intuition discriminate|]. vm_compute. auto. Qed.
(** Two adjacent literals, which Python joins to one string: each is rewritten by itself, and the blank at the
    end of the first one is lost. *)
Theorem C46_joined_literals_refuted : exists a b st,
  python_value a = Some "select a " /\ python_value b = Some "from t"
  /\ compute_tokens (fun x => x) true false
       [mk_tok TString a (1, 0)%Z (1, 11)%Z; mk_tok TString b (1, 12)%Z (1, 20)%Z;
        mk_tok TNewline nl (1, 20)%Z (1, 21)%Z; mk_tok TEnd "" (2, 0)%Z (2, 0)%Z] None = Ok st
  /\ map (fun t => python_value (t_text t)) (firstn 2 (c_tokens st)) = [Some "SELECT a"; Some "from t"]
  /\ format_sql ("select a " ++ "from t") = Ok ("SELECT a" ++ nl ++ "FROM t")
  /\ format_sql ("SELECT a" ++ "from t") = Ok "SELECT afrom t".
Proof.
  exists "'select a '", "'from t'". eexists.
  split; [vm_compute; reflexivity|]. split; [vm_compute; reflexivity|]. split; [vm_compute; reflexivity|].
  vm_compute. auto.
Qed.
Print Assumptions C46_joined_literals_refuted.
