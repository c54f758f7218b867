(** C49: names that FROM does not provide, or provides twice, are reported.  Definitions: SpecScope, SpecReport. *)
From Verif Require Import PyStr Ast AstLib Render Validate Api Grammar SpecVal SpecAnswer SpecScope SpecReport ProofScope ProofReport.
Local Open Scope str_scope.
Local Open Scope list_scope.

(** C49.  A column that is looked up in a scope that has no such name *)
Theorem C49_missing_reported : forall ord n v S es,
  seen (NColumn v) S [] n -> plain v -> missing v S -> validate_top ord n = Ok es ->
  In ("The column " ++ v ++ " was not found") es.
Proof. exact missing_reported. Qed.
Print Assumptions C49_missing_reported.
(** ... that has it under two aliases *)
Theorem C49_ambiguous_reported : forall ord n v S es,
  seen (NColumn v) S [] n -> plain v -> ambiguous v S -> validate_top ord n = Ok es ->
  In ("column """ ++ v ++ """ is ambiguous") es.
Proof. exact ambiguous_reported. Qed.
Print Assumptions C49_ambiguous_reported.
(** A column with an alias that has no such column *)
Theorem C49_dotted_reported : forall ord n a v S es,
  seen (NChained (NColumn a) (NColumn v)) S [] n -> plain a -> ~ In a COLUMN_KEYWORDS -> ~ In v COLUMN_KEYWORDS ->
  ~ found_in a v S -> validate_top ord n = Ok es ->
  In ("The column " ++ v ++ " was not found in alias " ++ a) es.
Proof. exact dotted_reported. Qed.
Print Assumptions C49_dotted_reported.
(** A column in GROUP BY that neither FROM nor the select list has *)
Theorem C49_group_reported : forall ord n S es exprs al d don f w args ru ea h o l off s Sf arg v,
  seen (NSelect exprs al d don (Some f) w (Some (args, ru, ea)) h o l off s) S [] n -> provides f Sf ->
  In arg args -> wraps arg (NColumn v) -> plain v -> missing v (S ++ Sf) ->
  (forall e w', ~ In (NAlias e (inl v) w') exprs) ->
  validate_top ord n = Ok es -> In ("column """ ++ v ++ """ does not exist") es.
Proof. exact group_reported. Qed.
Print Assumptions C49_group_reported.

Definition report_query : str :=
  "select x, y, b.w, f(z) from (select x, 1 as y from t) a join (select x, u v from s) b on a.x = b.x
   where y in (select k from (select q from r) where q = y) group by (g)".
Definition report_tree : node := Eval vm_compute in match parse_sql report_query with Ok n => n | Err _ => NNull end.
Definition report_scope : scope := [(Some "a", "x"); (Some "a", "y"); (Some "b", "x"); (Some "b", "v")].
Ltac in_scope e := eapply (sn_query _ _ _ _ _ e); [apply vi_list; cbn; tauto|reflexivity|provide|].
Example C49_example :
  parse_sql report_query = Ok report_tree
  /\ (seen (NColumn "x") report_scope [] report_tree /\ ambiguous "x" report_scope)
  /\ (seen (NColumn "z") report_scope [] report_tree /\ missing "z" report_scope)
  /\ (seen (NColumn "k") (report_scope ++ [(None, "q")]) [] report_tree /\ missing "k" (report_scope ++ [(None, "q")]))
  /\ (seen (NChained (NColumn "b") (NColumn "w")) report_scope [] report_tree /\ ~ found_in "b" "w" report_scope)
  /\ errors_of (fun s => s) report_query
     = Ok ["column ""x"" is ambiguous"; "The column w was not found in alias b"; "The column z was not found";
           "The column k was not found"; "column ""g"" does not exist"].
Proof.
  assert (D : forall v S, forallb (fun p => negb (str_eqb (snd p) v) && negb (str_eqb (snd p) "*")) S = true -> v <> "*" -> missing v S).
  { intros v S H N. split; auto. intros o w I. rewrite forallb_forall in H. apply H in I. cbn in I. apply andb_true_iff in I as [A B].
    apply negb_true_iff in A. apply negb_true_iff in B. apply Lib.str_eqb_neq in A. apply Lib.str_eqb_neq in B. auto. }
  split; [vm_compute; reflexivity|]. split; [split|split; [split|split; [split|split; [split|]]]].
  - unfold report_tree. in_scope (NColumn "x"). apply sn_here.
  - split; [discriminate|]. split; [intros w I; cbn in I; intuition discriminate|]. exists "a", "b". repeat split; cbn; auto. discriminate.
  - unfold report_tree. in_scope (NFun "f" [NColumn "z"]). eapply sn_part; [apply pt_fun; left; reflexivity|apply sn_here].
  - apply D; [reflexivity|discriminate].
  - unfold report_tree. eapply sn_query; [apply vi_where|reflexivity|provide|]. eapply sn_part; [apply pt_cond_r; discriminate|]. eapply sn_part; [apply pt_paren; left; reflexivity|].
    eapply sn_query; [apply vi_list; left; reflexivity|reflexivity|provide|]. apply sn_here.
  - apply D; [reflexivity|discriminate].
  - unfold report_tree. in_scope (NChained (NColumn "b") (NColumn "w")). apply sn_here.
  - intros [I|[I|I]]; vm_compute in I; intuition discriminate.
  - vm_compute. reflexivity.
Qed.

(** Not everywhere: nothing is looked up in a query that is joined, nor in the condition of a join; and in
    GROUP BY an ambiguous name makes is_valid() raise. *)
Theorem C49_everywhere_refuted :
  errors_of (fun s => s) "select x from (select x from (select y from t)) a join (select z from s) b on b.x = c" = Ok []
  /\ errors_of (fun s => s) "select 1 from (select x from t) a join (select x from s) b on a.x = b.x group by x" = Err AttributeError.
Proof. vm_compute. auto. Qed.
Print Assumptions C49_everywhere_refuted.
