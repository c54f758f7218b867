(** C68: which names are reported as not found.  Definitions: SpecLost, SpecScope, SpecReport, SpecNested. *)
From Verif Require Import PyStr Ast AstLib Render Validate Api Grammar SpecVal SpecAnswer SpecScope SpecReport SpecNested SpecNamed SpecLost ProofScope ProofReport ProofLost PropReport.
Local Open Scope str_scope.
Local Open Scope list_scope.

(** C68.  In a statement whose FROM clauses, as far as they are looked at, provide a scope each, tables and derived tables
    alike: when validation ends, the messages that a name was not found are exactly those for the names that are looked up
    in a scope that does not have them. *)
Theorem C68_lost_exactly : forall ord n es m, provided n -> validate_top ord n = Ok es -> lost_message m ->
  (In m es <-> exists x S, seen x S [] n /\ loses m x S).
Proof. exact lost_exact. Qed.
Print Assumptions C68_lost_exactly.

(** C68.  Likewise, a column is said to be ambiguous exactly when two aliases of a scope it is looked up in have it, provided that no
    alias has it twice. *)
Theorem C68_ambiguous_exactly : forall ord n es v, provided n -> validate_top ord n = Ok es -> (forall S, seen (NColumn v) S [] n -> once v S) ->
  (In ("column """ ++ v ++ """ is ambiguous") es <-> exists S, seen (NColumn v) S [] n /\ ambiguous v S).
Proof. exact ambiguous_exact. Qed.
Print Assumptions C68_ambiguous_exactly.

(** The query of C49: derived tables, a join, a query inside a condition *)
Example C68_example : parse_sql report_query = Ok report_tree /\ provided report_tree
  /\ errors_of (fun s => s) report_query
     = Ok ["column ""x"" is ambiguous"; "The column w was not found in alias b"; "The column z was not found";
           "The column k was not found"; "column ""g"" does not exist"].
Proof.
  split; [vm_compute; reflexivity|]. split; [|vm_compute; reflexivity]. apply all_froms_ok.
  let l := eval vm_compute in (all_froms report_tree) in replace (all_froms report_tree) with l by (vm_compute; reflexivity).
  repeat (apply Forall_cons; [eexists; provide|]). apply Forall_nil.
Qed.
(** What is not found in it, without the theorem *)
Example C68_example_lost :
  loses "The column z was not found" (NColumn "z") report_scope
  /\ loses "The column w was not found in alias b" (NChained (NColumn "b") (NColumn "w")) report_scope
  /\ loses "column ""g"" does not exist" report_tree [].
Proof.
  assert (O : ~ open_scope report_scope) by (intros X; repeat (destruct X as [X|X]; [discriminate X|]); exact X).
  assert (W : forall v, forallb (fun x => negb (str_eqb (in_full x) v)) report_scope = true -> not_written v report_scope).
  { intros v H x I E. rewrite forallb_forall in H. apply H in I. rewrite E, Lib.str_eqb_refl in I. discriminate I. }
  assert (A : forall v, forallb (fun x => negb (str_eqb (in_full x) v) && negb (str_eqb (snd x) v)) report_scope = true -> absent v report_scope).
  { intros v H. rewrite forallb_forall in H. split; [intros x I E|intros o I]; apply H, andb_true_iff in I as [I1 I2].
    - rewrite E, Lib.str_eqb_refl in I1. discriminate I1.
    - cbn [snd] in I2. rewrite Lib.str_eqb_refl in I2. discriminate I2. }
  split; [|split].
  - apply (ls_column "z"); [discriminate|exact O|apply A; reflexivity].
  - apply (ls_dotted (NColumn "b") (NColumn "w") "b" "w" "w"); auto; apply W; reflexivity.
  - unfold report_tree. eapply (ls_group "g" []); cycle 1; [cbn [from_scope]; provide| | | |].
    + exact O.
    + apply (A "g"). reflexivity.
    + intros e w I. repeat (destruct I as [I|I]; [discriminate I|]). exact I.
    + do 14 eexists. exists (NParen [NColumn "g"]). split; [reflexivity|]. split; [left; reflexivity|]. left. apply wraps_paren. constructor.
Qed.
(** A name that a table without alias could have is not reported; nor is one that the select list defines without AS, for
    GROUP BY.  An alias written with AS does not count there. *)
Example C68_example_not_lost :
  errors_of (fun s => s) "select z, y.w from t join (select x from s) y on t.a = y.x" = Ok []
  /\ errors_of (fun s => s) "select x g from (select x from t) group by g" = Ok []
  /\ errors_of (fun s => s) "select x as g from (select x from t) group by g" = Ok ["column ""g"" does not exist"].
Proof. vm_compute. auto. Qed.
(** The theorem on ambiguous columns: two derived tables with one column, joined *)
Definition both_query : str := "select x from (select x from t) a join (select x from s) b on a.x = b.x".
Definition twice_query : str := "select x from (select 1 x, 'a' x from t) a".
Definition both_tree : node := Eval vm_compute in match parse_sql both_query with Ok n => n | Err _ => NNull end.
Definition twice_tree : node := Eval vm_compute in match parse_sql twice_query with Ok n => n | Err _ => NNull end.
Ltac cases := repeat (match goal with
  | H : ?a = ?a -> _ |- _ => specialize (H eq_refl)
  | H : False |- _ => contradiction
  | H : In _ (_ :: _) |- _ => destruct H as [H|H]
  | H : In _ [] |- _ => destruct H
  | H : part _ _ |- _ => inversion H; clear H
  | H : validated_in _ _ |- _ => inversion H; clear H
  | H : from_of _ = _ |- _ => first [discriminate H | injection H as H]
  | H : seen _ _ _ _ |- _ => inversion H; clear H
  | H : provides _ _ |- _ => inversion H; clear H
  | H : Forall2 gives _ _ |- _ => inversion H; clear H
  | H : gives _ _ |- _ => inversion H; clear H
  | H : is_column (NColumn _) = false |- _ => discriminate H
  | H : forall x a w, NAlias ?e ?y ?z <> NAlias x a w |- _ => destruct (H e y z eq_refl)
  | H : forall args, Some (NParen ?l) <> Some (NParen args) |- _ => destruct (H l eq_refl)
  | H : is_sel _ = _ |- _ => first [discriminate H | clear H]
  end; subst; try discriminate).
Example C68_example_ambiguous : parse_sql both_query = Ok both_tree /\ provided both_tree /\ errors_of (fun s => s) both_query = Ok ["column ""x"" is ambiguous"]
  /\ (forall S, seen (NColumn "x") S [] both_tree -> once "x" S) /\ exists S, seen (NColumn "x") S [] both_tree /\ ambiguous "x" S.
Proof.
  assert (F : forall S, seen (NColumn "x") S [] both_tree -> S = [(Some "a", "x"); (Some "b", "x")]).
  { intros S H. unfold both_tree in H. cases. reflexivity. }
  split; [vm_compute; reflexivity|]. split; [|split; [vm_compute; reflexivity|split]].
  - apply all_froms_ok. let l := eval vm_compute in (all_froms both_tree) in replace (all_froms both_tree) with l by (vm_compute; reflexivity).
    repeat (apply Forall_cons; [eexists; provide|]). apply Forall_nil.
  - intros S H A B o E I. apply F in H. subst S. destruct A as [|? [|? A]]; injection E; intros; subst; cases. destruct A; discriminate.
  - eexists. split; [unfold both_tree; in_scope (NColumn "x"); apply sn_here|]. split; [discriminate|]. split; [intros w I; cbn in I; intuition discriminate|].
    exists "a", "b". split; [discriminate|]. split; [left|right; left]; reflexivity.
Qed.
(** Without the condition it is false: one alias has the column twice, with two types. *)
Theorem C68_ambiguous_anyway_refuted : parse_sql twice_query = Ok twice_tree /\ provided twice_tree
  /\ errors_of (fun s => s) twice_query = Ok ["column ""x"" is ambiguous"]
  /\ forall S, seen (NColumn "x") S [] twice_tree -> ~ ambiguous "x" S.
Proof.
  split; [vm_compute; reflexivity|]. split; [|split; [vm_compute; reflexivity|]].
  - apply all_froms_ok. let l := eval vm_compute in (all_froms twice_tree) in replace (all_froms twice_tree) with l by (vm_compute; reflexivity).
    repeat (apply Forall_cons; [eexists; provide|]). apply Forall_nil.
  - assert (F : forall S, seen (NColumn "x") S [] twice_tree -> S = [(Some "a", "x"); (Some "a", "x")]).
    { intros S H. unfold twice_tree in H. cases. reflexivity. }
    intros S H (_ & _ & a & b & D & Ia & Ib). apply F in H. subst S. cases; congruence.
Qed.
Print Assumptions C68_ambiguous_anyway_refuted.
(** With one type it is no fault. *)
Example C68_example_twice : errors_of (fun s => s) "select x from (select 1 x, 2 x from t) a" = Ok [].
Proof. vm_compute. reflexivity. Qed.
