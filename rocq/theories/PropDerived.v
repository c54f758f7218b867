(** C69: the exact messages and the exact answer, with derived tables.  Definitions: SpecDerived, SpecLost, SpecSays, SpecScope, SpecReport. *)
From Verif Require Import PyStr Ast AstLib Render Validate Api Grammar SpecVal SpecAnswer SpecScope SpecReport SpecNested SpecStuck SpecNamed SpecSays SpecLost SpecDerived
  ProofScope ProofReport ProofStuck ProofLost PropReport PropLost.
Local Open Scope str_scope.
Local Open Scope list_scope.

(** C69.  A statement whose FROM clauses, as far as they are looked at, provide a scope each; in which no condition is itself the name
    of something in its scope, and no alias has a column twice that is looked up.  When validation ends, a message is given exactly
    when something that is looked at deserves it. *)
Theorem C69_messages : forall ord n es, is_order ord -> provided n -> plain_tests n -> (forall v S, seen (NColumn v) S [] n -> once v S) ->
  validate_top ord n = Ok es -> forall m, In m es <-> exists x S, seen x S [] n /\ speaks m x S.
Proof. exact all_exact. Qed.
Print Assumptions C69_messages.
(** C69.  And when is_valid() answers, the answer is True exactly when nothing deserves a message. *)
Theorem C69_answer : forall ord q n b, is_order ord -> parse_sql q = Ok n -> is_sel n = true -> provided n -> plain_tests n ->
  (forall v S, seen (NColumn v) S [] n -> once v S) ->
  fst (q_is_valid ord (new_query q)) = Ok b -> (b = true <-> forall m x S, seen x S [] n -> ~ speaks m x S).
Proof. exact all_answer. Qed.
Print Assumptions C69_answer.
(** C69.  With the conditions of C62 on top: is_valid() raises exactly when something stuck is looked at, and otherwise says True exactly
    when nothing deserves a message. *)
Theorem C69_settled_answer : forall q n ord, is_order ord -> parse_sql q = Ok n -> is_sel n = true -> statement n = true -> settled_names n ->
  provided n -> plain_tests n -> (forall v S, seen (NColumn v) S [] n -> once v S) ->
  ((exists e, fst (q_is_valid ord (new_query q)) = Err e) <-> exists x, looked x n /\ stuck x)
  /\ (fst (q_is_valid ord (new_query q)) = Ok false <-> (~ exists x, looked x n /\ stuck x) /\ exists m x S, seen x S [] n /\ speaks m x S)
  /\ (fst (q_is_valid ord (new_query q)) = Ok true <-> (~ exists x, looked x n /\ stuck x) /\ ~ exists m x S, seen x S [] n /\ speaks m x S).
Proof. exact settled_answer. Qed.
Print Assumptions C69_settled_answer.

Definition wrong_query : str :=
  "select x, b.z, y from (select x, 1 as y from t) a join (select x from s) b on a.x = b.x
   where 3 limit -1".
Definition right_query : str :=
  "select a.x, y from (select x, 1 as y from t) a join (select x from s) b on a.x = b.x where a.x = y group by y".
Definition wrong_tree : node := Eval vm_compute in match parse_sql wrong_query with Ok n => n | Err _ => NNull end.
Definition right_tree : node := Eval vm_compute in match parse_sql right_query with Ok n => n | Err _ => NNull end.
Definition ab_scope : scope := [(Some "a", "x"); (Some "a", "y"); (Some "b", "x")].
Ltac provided_ := apply all_froms_ok; match goal with |- Forall _ ?x => let l := eval vm_compute in x in replace x with l by (vm_compute; reflexivity) end;
  repeat (apply Forall_cons; [eexists; provide|]); apply Forall_nil.
Lemma ab_once : forall v, once v ab_scope.
Proof.
  intros v A B o E I. destruct A as [|? [|? [|? A]]]; injection E; intros; subst; try (repeat (destruct I as [I|I]; [discriminate I|]); exact I). destruct A; discriminate.
Qed.
Lemma ab_written : forall t, forallb (fun x => negb (str_eqb (in_full x) t)) ab_scope = true -> not_written t ab_scope.
Proof. intros t H x I E. rewrite forallb_forall in H. apply H in I. rewrite E, Lib.str_eqb_refl in I. discriminate I. Qed.
Example C69_example : 
  parse_sql wrong_query = Ok wrong_tree /\ provided wrong_tree /\ plain_tests wrong_tree /\ (forall v S, seen (NColumn v) S [] wrong_tree -> once v S)
  /\ errors_of (fun s => s) wrong_query
     = Ok ["column ""x"" is ambiguous"; "The column z was not found in alias b"; "The argument of WHERE must be type boolean, not type int"; "LIMIT must not be negative"].
Proof.
  split; [vm_compute; reflexivity|]. split; [provided_|]. split; [|split; [|vm_compute; reflexivity]].
  - intros x S S' e who t H T Sc R. unfold wrong_tree in H.
    inversion H; subst; cases; inversion T; subst. cbn in Sc. destruct Sc as (Sf & Pf & ->). injection R as <-.
    assert (E : Sf = ab_scope) by (clear T; cases; reflexivity). rewrite E. apply ab_written. reflexivity.
  - intros v S H. assert (E : S = ab_scope) by (unfold wrong_tree in H; cases; reflexivity). rewrite E. apply ab_once.
Qed.
(** What deserves the messages, without the theorem *)
Example C69_example_speaks :
  (seen (NColumn "x") ab_scope [] wrong_tree /\ speaks "column ""x"" is ambiguous" (NColumn "x") ab_scope)
  /\ speaks "The argument of WHERE must be type boolean, not type int" wrong_tree [] /\ speaks "LIMIT must not be negative" wrong_tree [].
Proof.
  split; [split|split].
  - unfold wrong_tree. in_scope (NColumn "x"). apply sn_here.
  - apply (sk_ambiguous "x"). split; [discriminate|]. split; [intros w I; cbn in I; intuition discriminate|]. exists "a", "b". split; [discriminate|]. split; [left; reflexivity|right; right; left; reflexivity].
  - apply (sk_test "WHERE" (NInt 3) wrong_tree (NInt 3) "int"); constructor.
  - apply sk_clause; [constructor|]. eapply or_limit_neg; [constructor|reflexivity].
Qed.
(** And a query that deserves none *)
Example C69_example_right :
  parse_sql right_query = Ok right_tree /\ provided right_tree /\ plain_tests right_tree /\ (forall v S, seen (NColumn v) S [] right_tree -> once v S)
  /\ fst (q_is_valid (fun s => s) (new_query right_query)) = Ok true.
Proof.
  split; [vm_compute; reflexivity|]. split; [provided_|]. split; [|split; [|vm_compute; reflexivity]].
  - intros x S S' e who t H T Sc R. unfold right_tree in H.
    inversion H; subst; cases; inversion T; subst. cbn in Sc. destruct Sc as (Sf & Pf & ->). vm_compute in R. injection R as <-.
    assert (E : Sf = ab_scope) by (clear T; cases; reflexivity). rewrite E. apply ab_written. reflexivity.
  - intros v S H. assert (E : S = ab_scope) by (unfold right_tree in H; cases; reflexivity). rewrite E. apply ab_once.
Qed.
(** Both meet the conditions of C62. *)
Example C69_example_settled : forall n, n = wrong_tree \/ n = right_tree -> is_sel n = true /\ statement n = true /\ settled_names n.
Proof. intros n [->| ->]; (split; [reflexivity|]; split; [vm_compute; reflexivity|apply settledb_ok; vm_compute; reflexivity]). Qed.
(** The condition on tests is needed: a column of a derived table has the type of its expression. *)
Example C69_example_named_test :
  errors_of (fun s => s) "select 1 from (select 1 as y from t) where y" = Ok ["The argument of WHERE must be type boolean, not type int"].
Proof. vm_compute. reflexivity. Qed.
