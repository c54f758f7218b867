(** A query whose innermost subquery is rejected: each level is parsed twice. *)
From Verif Require Import PyStr Lib Tokeniser Ast Parser Api ParseCost ProofParseCost ProofParseCost3 SpecParseCost Scan GramTok GramHead LexText ProofCost2.
Local Open Scope str_scope.
Local Open Scope list_scope.

Fixpoint rtoks (n : nat) : list str :=
  match n with
  | O => ["a"; "group"; "x"]
  | S n => "a" :: "from" :: "(" :: ("select" :: rtoks n) ++ [")"]
  end.
Lemma rejected_T : forall n, T (rejected n) ("select" :: rtoks n).
Proof.
  induction n as [|n IH]; cbn [rejected rtoks].
  - apply T_fix; vm_compute; reflexivity.
  - change ("select" :: "a" :: "from" :: "(" :: ("select" :: rtoks n) ++ [")"])
      with (["select"; "a"; "from"; "("] ++ ("select" :: rtoks n) ++ [")"]).
    apply T_app; [apply T_fix; vm_compute; reflexivity| |].
    + apply T_app; [exact IH|apply T_fix; vm_compute; reflexivity|].
      right. right. right. exists [], 41%N. split; reflexivity.
    + right. right. left. exists "select a from ", 40%N. split; reflexivity.
Qed.
Lemma rejected_tokens : forall n, to_tokens (rejected n) = ("select" :: rtoks n, None).
Proof. intros n. apply T_tokens; [apply rejected_T|]. destruct n; discriminate. Qed.
Lemma rejected_length : forall n, length (rejected n) = 16 + 16 * n.
Proof. induction n as [|n IH]; cbn [rejected]; [reflexivity|]. rewrite !app_length, IH. cbn [length]. lia. Qed.


Ltac rewU U := match type of U with _ = ?r => match goal with |- context [until_one_of ?a ?b ?c ?d ?e] => replace (until_one_of a b c d e) with r by (symmetry; exact U) end end.
Definition no_by : exn := ParsingError "Missing BY after GROUP".
Lemma plainw : forall t, existsb (str_eqb t) MARKS = false -> existsb (str_eqb (lower t)) ["case"; "end"; "with"; "timestamp_trunc"] = false -> plain t.
Proof. intros t A B. split; apply mem_false; assumption. Qed.
Lemma rtoks_bl0 : forall n w K, inclb K (JOIN_VALUES ++ SET_OPERATORS) = true -> bl w K ("select" :: rtoks n) /\ bl w K (rtoks n).
Proof.
  assert (X : forall K t, inclb K (JOIN_VALUES ++ SET_OPERATORS) = true -> mem (lower t) (JOIN_VALUES ++ SET_OPERATORS) = false -> ~ In (lower t) K).
  { intros K t A B I. apply inclb_ok in A. apply A in I. apply mem_In in I. congruence. }
  induction n as [|n IH]; intros w K H; cbn [rtoks].
  - split; repeat (apply bl_tok; [apply plainw; reflexivity|apply X; [exact H|reflexivity]|]); apply bl_nil.
  - split; repeat (apply bl_tok; [apply plainw; reflexivity|apply X; [exact H|reflexivity]|]);
    (apply bl_par with (v := []); [apply IH; reflexivity|apply bl_nil]).
Qed.
Lemma rtoks_bl : forall n w K, inclb K (JOIN_VALUES ++ SET_OPERATORS) = true -> bl w K ("select" :: rtoks n).
Proof. intros. apply rtoks_bl0. auto. Qed.
Lemma paren_bl : forall n w K, bl w K ("(" :: ("select" :: rtoks n) ++ [")"]).
Proof. intros n w K. apply bl_par with (v := []); [apply rtoks_bl; reflexivity|apply bl_nil]. Qed.

(** a subquery in FROM: parsed as a statement, then as a table *)
Lemma from_twice : forall n f k q k' q',
  c_select (cparsers f) None (rtoks n) = (Err no_by, (k, q)) ->
  c_expr (cparsers f) None opts0 ("select" :: rtoks n) = (Err no_by, (k', q')) ->
  exists q2, c_from (cparsers (S (S f))) ("(" :: ("select" :: rtoks n) ++ [")"]) = (Err no_by, (k + k' + 3, q2)).
Proof.
  intros n f k q k' q' H1 H2.
  assert (S1 : c_stmt (cparsers (S f)) None ("select" :: rtoks n) = (Err no_by, (S k, q))).
  { change (c_stmt (cparsers (S f)) None ("select" :: rtoks n)) with (tick (cbind (free (Ok ("select", rtoks n))) (fun _ => c_select (cparsers f) None (rtoks n)))).
    cbn [cbind free]. rewrite H1. reflexivity. }
  assert (S2 : c_from (cparsers (S f)) ("select" :: rtoks n) = (Err no_by, (S k', q'))).
  { change (c_from (cparsers (S f)) ("select" :: rtoks n)) with (tick (c_from_body (cparsers f) ("select" :: rtoks n))).
    assert (U : until_one_of None (JOIN_VALUES ++ SET_OPERATORS) (Some "select") [] (rtoks n) = Ok ("select" :: rtoks n, None, [])).
    { apply (uof_end false (JOIN_VALUES ++ SET_OPERATORS)); try reflexivity; [apply rtoks_bl; reflexivity|right; discriminate]. }
    unfold c_from_body. assert (E : c_from_item (cparsers f) ("select" :: rtoks n) = (Err no_by, (k', q'))).
    { unfold c_from_item. cbn [next_req free cbind].
      change (str_eqb "select" "(") with false. change (mem "select" QUOTES) with false. change (str_eqb "select" "[") with false.
      change (str_eqb (lower "select") "unnest") with false. cbv iota. rewU U. cbn [free cbind]. rewrite H2. reflexivity. }
    rewrite E. reflexivity. }
  assert (U : until_close None None (("select" :: rtoks n) ++ [")"]) = Ok ("select" :: rtoks n, [])).
  { unfold until_close. rewrite (until_close_bl true [] _ (rtoks_bl n true [] eq_refl)) by lia. cbn. rewrite app_nil_r. reflexivity. }
  eexists. change (c_from (cparsers (S (S f))) ?x) with (tick (c_from_body (cparsers (S f)) x)).
  set (P := cparsers (S f)) in *. unfold c_from_body, c_from_item. cbn [next_req free cbind].
  change (str_eqb "(" "(") with true. cbv iota. rewrite U. cbn [free cbind]. rewrite S1, S2. unfold no_by. cbn [retry cbind tick].
  f_equal. f_equal. lia.
Qed.
Lemma expr_select : forall n f k q, c_select (cparsers f) None (rtoks n) = (Err no_by, (k, q)) ->
  c_expr (cparsers (S f)) None opts0 ("select" :: rtoks n) = (Err no_by, (S k, q)).
Proof.
  intros n f k q H. change (c_expr (cparsers (S f)) None opts0 ?x) with (tick (c_expr_body (cparsers f) None opts0 x)).
  assert (U : until_one_of None [] None [] (rtoks n) = Ok (rtoks n, None, [])).
  { apply (uo0_end false []); try reflexivity. apply rtoks_bl0. reflexivity. }
  unfold c_expr_body, c_expr_head, c_expr_first. cbn [next_req free cbind o_first opts0].
  change (mem "select" QUOTES) with false. change (isdigit "select") with false. change (isdigit (no_dots "select")) with false.
  change (mem (lower "select") BOOLEAN_VALUES) with false. change (mem (lower "select") NULL_VALUES) with false.
  change (str_eqb (lower "select") "not") with false. change (str_eqb "select" "(") with false. change (str_eqb "select" "[") with false.
  change (str_eqb (lower "select") "case") with false. change (str_eqb (lower "select") "select") with true. cbv iota.
  rewU U. cbn [free cbind next_opt]. rewrite H. reflexivity.
Qed.
Lemma select_step : forall n f k q,
  c_from (cparsers (S f)) ("(" :: ("select" :: rtoks n) ++ [")"]) = (Err no_by, (k, q)) ->
  c_select (cparsers (S (S f))) None (rtoks (S n)) = (Err no_by, (k + 2, q)).
Proof.
  intros n f k q H. change (c_select (cparsers (S (S f))) None ?x) with (tick (c_select_body (cparsers (S f)) None x)).
  cbn [rtoks]. set (X := "(" :: ("select" :: rtoks n) ++ [")"]) in *.
  assert (U1 : until_one_of None SELECT_KEYWORDS (Some "a") [] ("from" :: X) = Ok (["a"], Some "from", X)) by reflexivity.
  assert (U2 : until_one_of None ["where"; "group"; "having"; "order"; "limit"; "offset"; ";"] None [("with", "offset")] X = Ok (X, None, [])).
  { rewrite <- (app_nil_r X) at 1.
    apply (uo_ok true ["where"; "group"; "having"; "order"; "limit"; "offset"; ";"] X (paren_bl n _ _) true);
      [apply incl_refl|apply marksb_ok; reflexivity|auto|exact I]. }
  assert (E : c_exprlist (cparsers (S f)) false ["a"] = (Ok [NColumn "a"], (1, 0))) by reflexivity.
  set (P := cparsers (S f)) in *. unfold c_select_body. cbn [next_req free cbind].
  change (str_eqb (lower "a") "all") with false. change (str_eqb (lower "a") "distinct") with false. cbv iota.
  cbn [free cbind]. rewU U1. cbn [free cbind]. rewrite E. cbn [free cbind].
  change (olow_is (Some "from") "from") with true. cbv iota. rewU U2. cbn [free cbind]. rewrite H.
  cbn [cbind tick]. f_equal. f_equal; lia.
Qed.
Lemma select_calls : forall n f, 4 * n + 2 <= f ->
  exists k q, c_select (cparsers f) None (rtoks n) = (Err no_by, (k, q)) /\ 2 ^ n <= k.
Proof.
  induction n as [|n IH]; intros f L.
  - destruct f as [|[|f]]; try lia. exists 2, 0. split; [reflexivity|cbn; lia].
  - destruct f as [|[|[|[|f]]]]; try lia.
    destruct (IH (S f)) as (k1 & q1 & H1 & L1); [lia|]. destruct (IH f) as (k2 & q2 & H2 & L2); [lia|].
    destruct (from_twice n (S f) _ _ _ _ H1 (expr_select n f _ _ H2)) as [q3 H3].
    eexists. exists q3. split; [apply select_step; exact H3|]. cbn [Nat.pow]. lia.
Qed.
Lemma rtoks_length : forall n, length (rtoks n) = 3 + 5 * n.
Proof.
  induction n as [|n IH]; [reflexivity|].
  change (rtoks (S n)) with (["a"; "from"; "("; "select"] ++ rtoks n ++ [")"]). rewrite !app_length, IH. cbn [length]. lia.
Qed.
Lemma stmt_calls : forall n, 2 ^ n <= parser_calls None ("select" :: rtoks n) /\ parse_stmt None ("select" :: rtoks n) = Err no_by.
Proof.
  intros n. rewrite <- counted_result. unfold parser_calls, cparse_stmt.
  assert (F : parse_fuel ("select" :: rtoks n) = S (20 * n + 23)).
  { pose proof (rtoks_length n). unfold parse_fuel. cbn [length]. lia. }
  rewrite F. destruct (select_calls n (20 * n + 23)) as (k & q & H & L); [lia|].
  change (c_stmt (cparsers (S (20 * n + 23))) None ("select" :: rtoks n)) with (tick (cbind (free (Ok ("select", rtoks n))) (fun _ => c_select (cparsers (20 * n + 23)) None (rtoks n)))).
  cbn [cbind free]. rewrite H. cbn. split; [lia|reflexivity].
Qed.
Lemma rejected_calls : forall n, length (rejected n) = 16 + 16 * n /\
  parse_sql (rejected n) = Err (ParsingError "Missing BY after GROUP") /\
  2 ^ n <= parser_calls (snd (to_tokens (rejected n))) (fst (to_tokens (rejected n))).
Proof.
  intros n. split; [apply rejected_length|]. unfold parse_sql. rewrite rejected_tokens. cbn [fst snd].
  destruct (stmt_calls n). auto.
Qed.
Lemma rejected_no_polynomial : ~ exists c d, forall q m, parse_sql q = Err (ParsingError m) ->
  parser_calls (snd (to_tokens q)) (fst (to_tokens q)) <= c * length q ^ d.
Proof.
  intros (c & d & H). destruct (beyond (c * 2 ^ d) d) as (k & B). destruct (rejected_calls k) as (L & R & X). specialize (H _ _ R).
  rewrite L in H. assert (Y : (16 + 16 * k) ^ d <= (2 * (107 + 10 * k)) ^ d) by (apply Nat.pow_le_mono_l; lia).
  rewrite Nat.pow_mul_l in Y. apply (Nat.mul_le_mono_l _ _ c) in Y. lia.
Qed.
