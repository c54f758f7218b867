(** The bounds of ProofParseCost2.v, with numbers. *)
From Verif Require Import PyStr Lib Tokeniser Ast Parser ParseCost ProofParseCost ProofParseCost2 SpecParseCost.
Local Open Scope str_scope.
Local Open Scope list_scope.

(** every token once *)
Lemma linear_parsers : forall n, bounds 5 5 (fun _ => True) (cparsers n).
Proof.
  induction n as [|n IH]; [apply parsers_zero; lia|].
  eapply (parsers_step 5 5 (fun _ => True) (fun _ => True) (W 5)); auto; try lia; try (unfold W; intros; lia).
  constructor; intros ts _; [eapply stmt_cst|eapply from_cst]; eauto; exact I.
Qed.
Lemma calls_linear : forall eos ts, (parser_calls eos ts <= 1 + 5 * (length ts + reparsed eos ts))%nat.
Proof.
  intros eos ts. unfold parser_calls, reparsed, cparse_stmt.
  assert (H := stmt_cst _ _ _ _ eos ts (linear_parsers (parse_fuel ts)) I). unfold cst, W in H. lia.
Qed.

Lemma nested_mono : forall ts c d, c <= d -> nested_from c ts <= nested_from d ts.
Proof.
  induction ts as [|t r IH]; intros c d L; cbn [nested_from]; [lia|].
  destruct (str_eqb t "("); [specialize (IH (S c) (S d)); lia|]. destruct (str_eqb t ")"); apply IH; lia.
Qed.
Lemma nested_app : forall a b c, nested_from c a <= nested_from c (a ++ b) /\ paren_depth b <= nested_from c (a ++ b).
Proof.
  induction a as [|t r IH]; intros b c; cbn [nested_from app].
  - split; [lia|]. apply nested_mono. lia.
  - destruct (str_eqb t "("); [specialize (IH b (S c)); lia|]. destruct (str_eqb t ")"); apply IH.
Qed.
Lemma nested_close : forall eos ts (d : nat) a r c, until_close_loop eos (Z.of_nat d) ts = Ok (a, r) -> d <= c ->
  nested_from c a = 0 \/ S (nested_from c a) <= nested_from (S c) a.
Proof.
  intros eos ts. induction ts as [|t ts IH]; intros d a r c H L; cbn [until_close_loop] in H.
  - destruct eos; inversion H; subst. auto.
  - destruct (str_eqb t ")" && _)%bool eqn:E; [inversion H; subst; auto|].
    destruct (until_close_loop eos _ ts) as [[a' r']|] eqn:E'; cbn [rbind] in H; [|discriminate]. inversion H; subst.
    cbn [nested_from]. destruct (str_eqb t "(") eqn:E1.
    + replace (Z.of_nat d + 1)%Z with (Z.of_nat (S d)) in E' by lia. apply (IH _ _ _ (S c)) in E'; lia.
    + destruct (str_eqb t ")") eqn:E2.
      * cbn [andb] in E. apply Z.eqb_neq in E. replace (Z.of_nat d - 1)%Z with (Z.of_nat (Nat.pred d)) in E' by lia.
        apply (IH _ _ _ (Nat.pred c)) in E'; [|lia]. replace (Nat.pred (S c)) with (S (Nat.pred c)) by lia. exact E'.
      * apply (IH _ _ _ c) in E'; lia.
Qed.
Definition shallow (d : nat) (ts : list str) : Prop := paren_depth ts <= d.
Lemma shallow_app : forall d a b, shallow d (a ++ b) -> shallow d a /\ shallow d b.
Proof. unfold shallow, paren_depth at 1. intros d a b H. destruct (nested_app a b 0). unfold paren_depth in *. lia. Qed.
Lemma shallow_inner : forall d ts at_ r, shallow (S d) ("(" :: ts) -> until_close None None ts = Ok (at_, r) -> shallow d at_.
Proof.
  unfold shallow, paren_depth. intros d ts at_ r H E. cbn [nested_from] in H. change (str_eqb "(" "(") with true in H. cbv iota in H.
  unfold until_close in E. assert (X := until_close_loop_app _ _ _ _ _ E). destruct X as [c X].
  apply (nested_close _ _ 0 _ _ 0) in E; [|lia]. assert (Y := nested_app at_ (c ++ r) 1). rewrite <- X in Y. lia.
Qed.
Lemma shallow_zero : forall ts, shallow 0 ("(" :: ts) -> False.
Proof. unfold shallow, paren_depth. intros ts H. cbn [nested_from] in H. change (str_eqb "(" "(") with true in H. cbv iota in H. lia. Qed.
Lemma deep_parsers : forall d n, bounds 0 (5 * 2 ^ Z.of_nat d) (shallow d) (cparsers n).
Proof.
  induction d as [|d IHd]; intros n.
  - induction n as [|n IH]; [apply parsers_zero; cbn; lia|].
    eapply (parsers_step 0 _ (shallow 0) (fun _ => False) (fun _ => 0%Z)); auto; try (cbn; lia).
    + apply shallow_app.
    + intros ts at_ r H _. eapply shallow_zero; eauto.
    + intros l. unfold W. change (2 ^ Z.of_nat 0)%Z with 1%Z. lia.
    + intros l. unfold W. change (2 ^ Z.of_nat 0)%Z with 1%Z. lia.
    + constructor; intros ts [].
  - assert (E : (2 ^ Z.of_nat (S d) = 2 * 2 ^ Z.of_nat d)%Z) by (rewrite Nat2Z.inj_succ, Z.pow_succ_r; lia).
    assert (0 < 2 ^ Z.of_nat d)%Z by (apply Z.pow_pos_nonneg; lia).
    induction n as [|n IH]; [apply parsers_zero; lia|].
    eapply (parsers_step 0 _ (shallow (S d)) (shallow d) (W (5 * 2 ^ Z.of_nat d))); auto; try lia.
    + apply shallow_app.
    + apply shallow_inner.
    + intros l. unfold W. nia.
    + intros l. unfold W. nia.
    + constructor; intros ts S0; [eapply stmt_cst|eapply from_cst]; eauto; lia.
Qed.
Lemma calls_nested : forall eos ts, parser_calls eos ts <= 1 + 5 * 2 ^ paren_depth ts * length ts.
Proof.
  intros eos ts. unfold parser_calls, cparse_stmt.
  assert (H := stmt_cst _ _ _ _ eos ts (deep_parsers (paren_depth ts) (parse_fuel ts)) (Nat.le_refl _)). unfold cst, W in H.
  assert (E : Z.of_nat (2 ^ paren_depth ts) = (2 ^ Z.of_nat (paren_depth ts))%Z) by (rewrite Nat2Z.inj_pow; reflexivity).
  nia.
Qed.
