(** The parsers without fuel: a record of parsers that satisfies its own equations. *)
From Verif Require Import PyStr Lib Tokeniser Ast Parser Api ProofTerm ProofFuel.
Local Open Scope list_scope.

Definition PI : parsers_t :=
  mk_parsers
    (fun eos o ts => p_expr (parsers (2 * em o ts + 1)) eos o ts)
    (fun eos ts => p_select (parsers (2 * length ts + 2)) eos ts)
    (fun ts => p_from (parsers (2 * length ts + 2)) ts)
    (fun eos ts => p_stmt (parsers (2 * length ts + 2)) eos ts).
Lemma rel_sym : forall {A} (F : A -> Prop) r1 r2, rel F r1 r2 -> rel F r2 r1.
Proof. intros A F r1 r2 [<- H]. split; auto. Qed.
Lemma sim_PI : forall n, sim (parsers n) PI n.
Proof.
  intros n. split; [|split; [|split]]; intros; cbn [PI p_expr p_select p_from p_stmt].
  - eapply expr_rel; [apply (parsers_sim (2 * em o ts + 1)); lia|auto|lia].
  - eapply select_rel; [apply (parsers_sim (2 * length ts + 2)); lia|auto|lia].
  - eapply from_rel; [apply (parsers_sim (2 * length ts + 2)); lia|lia].
  - eapply stmt_rel; [apply (parsers_sim (2 * length ts + 2)); lia|auto|lia].
Qed.
Lemma PI_expr : forall eos o ts, eok eos -> p_expr PI eos o ts = expr_body PI eos o ts.
Proof.
  intros eos o ts E. cbn [PI p_expr]. rewrite Nat.add_1_r. cbn [parsers p_expr].
  eapply expr_body_rel; [apply sim_PI|auto|lia].
Qed.
Lemma PI_select : forall eos ts, eok eos -> p_select PI eos ts = select_body PI eos ts.
Proof.
  intros eos ts E. cbn [PI p_select]. replace (2 * length ts + 2) with (S (2 * length ts + 1)) by lia. cbn [parsers p_select].
  eapply select_body_rel; [apply sim_PI|auto|lia].
Qed.
Lemma PI_from : forall ts, p_from PI ts = from_body PI ts.
Proof.
  intros ts. cbn [PI p_from]. replace (2 * length ts + 2) with (S (2 * length ts + 1)) by lia. cbn [parsers p_from].
  eapply from_body_rel; [apply sim_PI|lia].
Qed.
Lemma PI_stmt : forall eos ts, eok eos -> p_stmt PI eos ts = stmt_body PI eos ts.
Proof.
  intros eos ts E. cbn [PI p_stmt]. replace (2 * length ts + 2) with (S (2 * length ts + 1)) by lia. cbn [parsers p_stmt].
  eapply stmt_body_rel; [apply sim_PI|auto|lia].
Qed.
Lemma parse_PI : forall eos ts, eok eos -> parse_stmt eos ts = p_stmt PI eos ts.
Proof. intros eos ts E. symmetry. apply (stmt_fuel (2 * length ts + 2)); auto. Qed.
Global Opaque PI.
