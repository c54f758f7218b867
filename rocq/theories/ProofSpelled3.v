(** Proofs for C54: what is false without the hypotheses. *)
From Verif Require Import PyStr Tokeniser Ast Parser Render Api Lib SpecTaken ProofTaken ProofSpelled ProofSpelled2.
Local Open Scope str_scope.
Local Open Scope list_scope.

Lemma sql_taken : forall sql n, parse_sql sql = Ok n -> taken (pieces n) (fst (to_tokens sql)).
Proof. intros sql n H. unfold parse_sql in H. destruct (to_tokens sql) as [ts eos]. apply parse_taken in H. exact H. Qed.
Lemma sql_times : forall sql n s, parse_sql sql = Ok n -> times s (pieces n) <= count_occ (list_eq_dec N.eq_dec) (fst (to_tokens sql)) s.
Proof.
  intros sql n s H. apply sql_taken in H. apply (taken_times s) in H. eapply Nat.le_trans; [exact H|]. clear H n.
  induction (fst (to_tokens sql)) as [|t l IH]; cbn [filter count_occ]; [auto|].
  destruct (str_eqb t s) eqn:E, (list_eq_dec N.eq_dec t s) as [F|F]; cbn [length]; try lia.
  apply str_eqb_eq in E. contradiction.
Qed.
Lemma lost_witness : exists sql t name, format_sql sql = Ok t /\ In name (fst (to_tokens sql)) /\ contains name t = false.
Proof.
  exists "select a || b || xyz from t", "SELECT a || b ||
FROM t", "xyz". split; [vm_compute; reflexivity|]. split; [|vm_compute; reflexivity].
  apply mem_In. vm_compute. reflexivity.
Qed.
Lemma quote_witness : exists sql t, format_sql sql = Ok t /\ count_occ N.eq_dec sql 39%N < count_occ N.eq_dec t 39%N.
Proof.
  exists "select not r'a' b' from t", (match format_sql "select not r'a' b' from t" with Ok t => t | Err _ => [] end).
  split; [vm_compute; reflexivity|]. vm_compute. lia.
Qed.
Lemma taken_head : forall s l ts, taken (Text s :: l) ts -> exists v, In s ts /\ taken l v /\ exists u, ts = u ++ s :: v.
Proof.
  intros s l ts H. remember (Text s :: l) as x eqn:E. revert s l E. induction H; intros s0 l0 E.
  - discriminate.
  - subst. destruct (IHtaken _ _ eq_refl) as (v & I & T & u & ->). exists v. repeat split; auto; [right; auto|].
    exists (t :: u). reflexivity.
  - injection E as -> ->. inversion H; subst. exists ts. cbn [app length]. repeat split; auto; [left; auto|]. exists []. reflexivity.
Qed.
Lemma taken_not : ~ taken [Text "a"; Text "a"] ["a"; ","; "b"] /\ ~ taken [Text "b"; Text "a"] ["a"; ","; "b"]
  /\ ~ taken [Text "c"] ["a"; ","; "b"].
Proof.
  repeat split; intros H; apply taken_head in H as (v & I & T & u & E).
  - apply taken_head in T as (w & J & _).
    destruct u as [|x [|y [|z u]]]; cbn in E; inversion E; subst;
    first [destruct u; discriminate | cbn in J; repeat destruct J as [J|J]; first [discriminate|contradiction]].
  - apply taken_head in T as (w & J & _).
    destruct u as [|x [|y [|z u]]]; cbn in E; inversion E; subst;
    first [destruct u; discriminate | cbn in J; repeat destruct J as [J|J]; first [discriminate|contradiction]].
  - cbn in I. destruct I as [I|[I|[I|[]]]]; discriminate.
Qed.
