(** First keywords of a statement and of its formatted text. *)
From Verif Require Import PyStr Lib Tokeniser Ast Parser Render RenderEq Validate Api ProofTerm ProofFuel.
Local Open Scope str_scope.
Local Open Scope list_scope.

Lemma parse_terminates : forall ts eos n, eos <> Some OutOfFuel -> 2 * length ts + 2 <= n ->
  p_stmt (parsers n) eos ts = p_stmt (parsers (2 * length ts + 2)) eos ts
  /\ p_stmt (parsers n) eos ts <> Err OutOfFuel.
Proof.
  intros ts eos n E N. destruct (stmt_fuel n eos ts E N) as [A B].
  destruct (stmt_fuel (2 * length ts + 2) eos ts E (le_n _)) as [C _]. rewrite A, C. auto.
Qed.
Lemma format_terminates : forall s, parse_sql s <> Err OutOfFuel /\ format_sql s <> Err OutOfFuel.
Proof. intros s. split; [apply parse_sql_nf|apply format_sql_nf]. Qed.

Lemma stmt_step : forall eos ts, parse_stmt eos ts = stmt_body (parsers (4 * length ts + 7)) eos ts.
Proof. intros. unfold parse_stmt, parse_fuel. replace (4 * length ts + 8) with (S (4 * length ts + 7)) by lia. auto. Qed.
Lemma other_statement : forall s t ts eos, to_tokens s = (t :: ts, eos) -> ~ In (lower t) ["select"; "with"] ->
  format_sql s = Err (ParsingError [])
  /\ forall ord, fst (q_is_valid ord (new_query s)) = Ok false
       /\ q_errors (snd (q_is_valid ord (new_query s))) = [[]].
Proof.
  intros s t ts eos E H.
  assert (P : parse_sql s = Err (ParsingError [])).
  { unfold parse_sql. rewrite E, stmt_step. unfold stmt_body. cbn [next_req rbind].
    replace (str_eqb (lower t) "select") with false; [replace (str_eqb (lower t) "with") with false; auto|];
      symmetry; apply str_eqb_neq; intros X; apply H; rewrite X; cbn; auto. }
  split; [unfold format_sql; rewrite P; auto|]. intros ord.
  unfold q_is_valid, q_validate, get_ast, new_query. cbn [q_validated q_ast q_sql q_errors]. rewrite P. auto.
Qed.
Lemma select_shape : forall P eos ts n, select_body P eos ts = Ok n ->
  exists a b c d e f g h i j k l, n = NSelect a b c d e f g h i j k l.
Proof.
  intros P eos ts n H. unfold select_body in H.
  repeat match type of H with
  | rbind _ _ = Ok _ => apply rbind_Ok in H as [? [_ H]]
  | (let '(_, _) := ?x in _) = Ok _ => destruct x as [? ?]
  end. injection H as <-. repeat eexists.
Qed.
Lemma render_select : forall a b c d e f g h i j k l t, render Tr (NSelect a b c d e f g h i j k l) = Ok t ->
  exists r, t = "SELECT" ++ r.
Proof.
  intros a b c d e f g h i j k l t H. rewrite render_NSelect in H.
  repeat match type of H with rbind _ _ = Ok _ => apply rbind_Ok in H as [? [_ H]] | (let _ := _ in _) = _ => cbv zeta in H end.
  cbn [finish] in H. injection H as <-. rewrite <- app_assoc. eexists. reflexivity.
Qed.
Lemma render_with : forall q s t, render Tr (NWith q s) = Ok t -> exists r, t = "WITH " ++ r.
Proof.
  intros q s t H. rewrite render_NWith in H. inv_bind H. inv_bind H. cbn [finish] in H. injection H as <-.
  eexists. reflexivity.
Qed.
Lemma formatted_statement : forall s out, format_sql s = Ok out ->
  exists t ts eos, to_tokens s = (t :: ts, eos)
  /\ (lower t = "select" /\ (exists r, out = "SELECT" ++ r) \/ lower t = "with" /\ (exists r, out = "WITH " ++ r)).
Proof.
  intros s out H. unfold format_sql in H. inv_bind H. rename a into n. unfold parse_sql in Hb.
  destruct (to_tokens s) as [[|t ts] eos].
  { rewrite stmt_step in Hb. unfold stmt_body in Hb. destruct eos; discriminate. }
  exists t, ts, eos. split; auto. rewrite stmt_step in Hb. unfold stmt_body in Hb. cbn [next_req rbind length] in Hb.
  replace (4 * S (length ts) + 7) with (S (4 * length ts + 10)) in Hb by lia. cbn [parsers p_select] in Hb.
  destruct (str_eqb_spec (lower t) "select") as [E|_].
  - left. split; auto. apply select_shape in Hb. destruct Hb as (?&?&?&?&?&?&?&?&?&?&?&?&->). eapply render_select; eauto.
  - destruct (str_eqb_spec (lower t) "with") as [E|_]; [|discriminate].
    right. split; auto. unfold with_parse in Hb. inv_bind Hb. destruct a as [qs r]. inv_bind Hb. injection Hb as <-.
    eapply render_with; eauto.
Qed.
