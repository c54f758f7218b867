(** An accepted query each level of which is parsed twice. *)
From Verif Require Import PyStr Lib Tokeniser Ast Parser Api ParseCost ProofParseCost ProofParseCost3 ProofParseCost4 SpecParseCost Scan GramTok GramHead LexText ProofCost2.
Local Open Scope str_scope.
Local Open Scope list_scope.

(** the tokens of [accepted_in n], with [rest] after them *)
Definition tail_toks : list str := [","; "b"; "group"; "x"].
Fixpoint atoks (n : nat) : list str :=
  match n with
  | O => ["select"; "a"; "from"; "t"]
  | S n => "select" :: "a" :: "from" :: "(" :: atoks n ++ ")" :: tail_toks
  end.
Lemma accepted_in_T : forall n, T (accepted_in n) (atoks n).
Proof.
  induction n as [|n IH]; cbn [accepted_in atoks].
  - apply T_fix; vm_compute; reflexivity.
  - change ("select" :: "a" :: "from" :: "(" :: atoks n ++ ")" :: tail_toks)
      with (["select"; "a"; "from"; "("] ++ atoks n ++ (")" :: tail_toks)).
    apply T_app; [apply T_fix; vm_compute; reflexivity| |].
    + apply T_app; [exact IH|apply T_fix; vm_compute; reflexivity|].
      right. right. right. exists ", b group x", 41%N. split; reflexivity.
    + right. right. left. exists "select a from ", 40%N. split; reflexivity.
Qed.
Lemma accepted_T : forall n, T (accepted n) ("select" :: "a" :: "from" :: "(" :: atoks n ++ [")"]).
Proof.
  intros n. unfold accepted. change ("select" :: "a" :: "from" :: "(" :: atoks n ++ [")"]) with (["select"; "a"; "from"; "("] ++ atoks n ++ [")"]).
  apply T_app; [apply T_fix; vm_compute; reflexivity| |].
  - apply T_app; [apply accepted_in_T|apply T_fix; vm_compute; reflexivity|].
    right. right. right. exists [], 41%N. split; reflexivity.
  - right. right. left. exists "select a from ", 40%N. split; reflexivity.
Qed.
Lemma accepted_tokens : forall n, to_tokens (accepted n) = ("select" :: "a" :: "from" :: "(" :: atoks n ++ [")"], None).
Proof. intros n. apply T_tokens; [apply accepted_T|discriminate]. Qed.
Lemma accepted_length : forall n, length (accepted n) = 31 + 27 * n.
Proof.
  intros n. assert (X : length (accepted_in n) = 15 + 27 * n).
  { induction n as [|n IH]; cbn [accepted_in]; [reflexivity|]. rewrite !app_length, IH. cbn [length]. lia. }
  unfold accepted. rewrite !app_length, X. cbn [length]. lia.
Qed.

Lemma atoks_bl : forall n w, bl w [] (atoks n).
Proof.
  assert (E : forall n w, bl true [] (atoks n) -> bl w [] ("(" :: atoks n ++ ")" :: tail_toks)).
  { intros n w B. apply bl_par; [exact B|]. unfold tail_toks. repeat (apply bl_tok; [apply plainw; reflexivity|intros []|]). apply bl_nil. }
  induction n as [|n IH]; intros w; cbn [atoks]; repeat (apply bl_tok; [apply plainw; reflexivity|intros []|]); [apply bl_nil|]. apply E, IH.
Qed.
Definition FROM_STOPS : list str := ["where"; "group"; "having"; "order"; "limit"; "offset"; ";"].
(** SELECT a FROM x, and the same with a GROUP BY that lacks BY *)
Section Select.
Variables (P : cparsers_t) (X X' : list str) (y : node) (k q : nat).
Hypothesis E : c_exprlist P false ["a"] = (Ok [NColumn "a"], (1, 0)).
Hypothesis F : c_from P X = (Ok y, (k, q)).
Lemma select_ok : until_one_of None FROM_STOPS None [("with", "offset")] X' = Ok (X, None, []) ->
  exists z, c_select_body P None ("a" :: "from" :: X') = (Ok z, (S k, q)).
Proof.
  intros U2. assert (U1 : until_one_of None SELECT_KEYWORDS (Some "a") [] ("from" :: X') = Ok (["a"], Some "from", X')) by reflexivity.
  unfold c_select_body. cbn [next_req free cbind].
  change (str_eqb (lower "a") "all") with false. change (str_eqb (lower "a") "distinct") with false. cbv iota.
  cbn [free cbind]. rewU U1. cbn [free cbind]. rewrite E. cbn [free cbind].
  change (olow_is (Some "from") "from") with true. cbv iota. rewU U2. cbn [free cbind]. rewrite F. cbn.
  rewrite !Nat.add_0_r. eauto.
Qed.
Lemma select_no_by : until_one_of None FROM_STOPS None [("with", "offset")] X' = Ok (X, Some "group", ["x"]) ->
  c_select_body P None ("a" :: "from" :: X') = (Err no_by, (S k, q)).
Proof.
  intros U2. assert (U1 : until_one_of None SELECT_KEYWORDS (Some "a") [] ("from" :: X') = Ok (["a"], Some "from", X')) by reflexivity.
  unfold c_select_body. cbn [next_req free cbind].
  change (str_eqb (lower "a") "all") with false. change (str_eqb (lower "a") "distinct") with false. cbv iota.
  cbn [free cbind]. rewU U1. cbn [free cbind]. rewrite E. cbn [free cbind].
  change (olow_is (Some "from") "from") with true. cbv iota. rewU U2. cbn [free cbind]. rewrite F. cbn.
  rewrite !Nat.add_0_r. reflexivity.
Qed.
End Select.
(** a table, alone or before [, b] *)
Lemma from_one : forall P X y k q, c_from_item P X = (Ok (y, None, []), (k, q)) -> c_from_body P X = (Ok y, (k, q)).
Proof. intros P X y k q H. unfold c_from_body. rewrite H. cbn. rewrite !Nat.add_0_r. reflexivity. Qed.
Lemma from_comma : forall f X y k q r, In r [["b"]; ["b"; "group"; "x"]] -> c_from_item (cparsers (S (S f))) X = (Ok (y, Some ",", r), (k, q)) ->
  exists z k', c_from_body (cparsers (S (S f))) X = (Ok z, (k + k', q)).
Proof.
  intros f X y k q r I H. unfold c_from_body. rewrite H. destruct I as [<-|[<-|[]]]; cbn; rewrite !Nat.add_0_r; eauto.
Qed.
Lemma item_twice : forall n f,
  (forall g r, f <= g -> exists y k q, c_from_item (cparsers g) ("(" :: atoks n ++ ")" :: r) = (Ok (y, hd_error r, tl r), (k, q)) /\ 2 ^ n <= k) ->
  forall r, exists y k q, c_from_item (cparsers (5 + f)) ("(" :: atoks (S n) ++ ")" :: r) = (Ok (y, hd_error r, tl r), (k, q)) /\ 2 ^ S n <= k.
Proof.
  intros n f IH r.
  assert (EL : forall g, c_exprlist (cparsers (S g)) false ["a"] = (Ok [NColumn "a"], (1, 0))) by reflexivity.
  set (Z := fun r => "(" :: atoks n ++ ")" :: r).
  assert (BZ : forall w K, bl w K (Z [])) by (intros; apply bl_par with (v := []); [apply atoks_bl|apply bl_nil]).
  (* as a statement *)
  assert (A : exists k q, c_stmt (cparsers (5 + f)) None (atoks (S n)) = (Err no_by, (k, q)) /\ 2 ^ n <= k).
  { destruct (IH (2 + f) [","; "b"]) as (y & k & q & H & L); [lia|].
    destruct (from_comma f _ _ _ _ _ (or_introl eq_refl) H) as (z & k' & H').
    assert (U : until_one_of None FROM_STOPS None [("with", "offset")] (Z tail_toks) = Ok (Z [","; "b"], Some "group", ["x"])).
    { replace (Z tail_toks) with (Z [","; "b"] ++ ["group"; "x"]) by (unfold Z, tail_toks; cbn [app]; rewrite <- app_assoc; reflexivity).
      apply (uo_ok true FROM_STOPS (Z [","; "b"])) with (w' := true);
        [|apply incl_refl|apply marksb_ok; reflexivity|auto|cbn; auto].
      apply bl_par; [apply atoks_bl|]. repeat (apply bl_tok; [apply plainw; reflexivity|apply mem_false; reflexivity|]). apply bl_nil. }
    assert (S1 := select_no_by (cparsers (3 + f)) (Z [","; "b"]) (Z tail_toks) z (S (k + k')) q (EL _) ltac:(change (tick (c_from_body (cparsers (2 + f)) (Z [","; "b"])) = (Ok z, (S (k + k'), q))); unfold Z; cbn [Nat.add]; rewrite H'; reflexivity) U).
    do 2 eexists. split.
    - change (c_stmt (cparsers (5 + f)) None (atoks (S n))) with (tick (cbind (free (Ok ("select", "a" :: "from" :: Z tail_toks))) (fun _ => tick (c_select_body (cparsers (3 + f)) None ("a" :: "from" :: Z tail_toks))))).
      cbn [cbind free]. rewrite S1. reflexivity.
    - cbn [tick]. lia. }
  (* as a table *)
  assert (B : exists y k q, c_from (cparsers (5 + f)) (atoks (S n)) = (Ok y, (k, q)) /\ 2 ^ n <= k).
  { destruct (IH (1 + f) []) as (y & k & q & H & L); [lia|].
    apply from_one in H.
    assert (U : until_one_of None FROM_STOPS None [("with", "offset")] (Z []) = Ok (Z [], None, [])).
    { rewrite <- (app_nil_r (Z [])) at 1. apply (uo_ok true FROM_STOPS (Z [])) with (w' := true);
        [apply BZ|apply incl_refl|apply marksb_ok; reflexivity|auto|exact I]. }
    destruct (select_ok (cparsers (2 + f)) (Z []) (Z []) y (S k) q (EL _) ltac:(change (tick (c_from_body (cparsers (1 + f)) (Z [])) = (Ok y, (S k, q))); unfold Z; cbn [Nat.add] in *; rewrite H; reflexivity) U) as (z & S1).
    assert (U1 : until_one_of None [] None [] ("a" :: "from" :: Z []) = Ok ("a" :: "from" :: Z [], None, [])).
    { apply (uo0_end false []); try reflexivity. repeat (apply bl_tok; [apply plainw; reflexivity|intros []|]). apply BZ. }
    assert (X1 : c_expr (cparsers (4 + f)) None opts0 ("select" :: "a" :: "from" :: Z []) = (Ok (z, None, []), (4 + k, q))).
    { change (c_expr (cparsers (4 + f)) None opts0 ?x) with (tick (c_expr_body (cparsers (3 + f)) None opts0 x)).
      assert (S2 : c_select (cparsers (3 + f)) None ("a" :: "from" :: Z []) = (Ok z, (S (S (S k)), q))).
      { change (c_select (cparsers (3 + f)) None ?x) with (tick (c_select_body (cparsers (2 + f)) None x)). rewrite S1. reflexivity. }
      set (Q := cparsers (3 + f)) in *.
      unfold c_expr_body, c_expr_head, c_expr_first. cbn [next_req free cbind o_first opts0].
      change (mem "select" QUOTES) with false. change (isdigit "select") with false. change (isdigit (no_dots "select")) with false.
      change (mem (lower "select") BOOLEAN_VALUES) with false. change (mem (lower "select") NULL_VALUES) with false.
      change (str_eqb (lower "select") "not") with false. change (str_eqb "select" "(") with false. change (str_eqb "select" "[") with false.
      change (str_eqb (lower "select") "case") with false. change (str_eqb (lower "select") "select") with true. cbv iota.
      rewU U1. cbn [free cbind next_opt]. rewrite S2. cbn. rewrite !Nat.add_0_r. reflexivity. }
    assert (U2 : until_one_of None (JOIN_VALUES ++ SET_OPERATORS) (Some "select") [] ("a" :: "from" :: Z tail_toks) = Ok ("select" :: "a" :: "from" :: Z [], Some ",", ["b"; "group"; "x"])).
    { replace (Z tail_toks) with (Z [] ++ tail_toks) by (unfold Z; cbn [app]; rewrite <- app_assoc; reflexivity).
      apply (uof false (JOIN_VALUES ++ SET_OPERATORS) "select" ("a" :: "from" :: Z []) (JOIN_VALUES ++ SET_OPERATORS) tail_toks); try reflexivity;
        [|right; discriminate|apply mem_In; reflexivity].
      repeat (apply bl_tok; [apply plainw; reflexivity|apply mem_false; reflexivity|]). apply BZ. }
    assert (I1 : c_from_item (cparsers (4 + f)) (atoks (S n)) = (Ok (NTable z false, Some ",", ["b"; "group"; "x"]), (4 + k, q))).
    { set (Q := cparsers (4 + f)) in *. change (atoks (S n)) with ("select" :: "a" :: "from" :: Z tail_toks). unfold c_from_item. cbn [next_req free cbind].
      change (str_eqb "select" "(") with false. change (mem "select" QUOTES) with false. change (str_eqb "select" "[") with false.
      change (str_eqb (lower "select") "unnest") with false. cbv iota. rewU U2. cbn [free cbind]. rewrite X1. cbn. rewrite !Nat.add_0_r. reflexivity. }
    destruct (from_comma (2 + f) _ _ _ _ _ (or_intror (or_introl eq_refl)) I1) as (w & k' & H').
    do 3 eexists. split; [change (c_from (cparsers (5 + f)) (atoks (S n))) with (tick (c_from_body (cparsers (S (S (2 + f)))) (atoks (S n)))); rewrite H'; reflexivity|]. cbn [tick]. lia. }
  destruct A as (k1 & q1 & A & L1). destruct B as (y & k2 & q2 & B & L2).
  assert (U : until_close None None (atoks (S n) ++ ")" :: r) = Ok (atoks (S n), r)).
  { unfold until_close. rewrite (until_close_bl true [] _ (atoks_bl (S n) true)) by lia. cbn [until_close_loop]. cbn. rewrite app_nil_r. reflexivity. }
  set (Q := cparsers (5 + f)) in *. set (X := atoks (S n)) in *. unfold c_from_item. cbn [next_req free cbind].
  change (str_eqb "(" "(") with true. cbv iota. rewrite U. cbn [free cbind]. rewrite A, B. unfold no_by.
  destruct r as [|t r]; cbn; rewrite ?Nat.add_0_r; do 3 eexists; (split; [reflexivity|lia]).
Qed.
Lemma item_calls : forall n g r, 5 * n + 5 <= g ->
  exists y k q, c_from_item (cparsers g) ("(" :: atoks n ++ ")" :: r) = (Ok (y, hd_error r, tl r), (k, q)) /\ 2 ^ n <= k.
Proof.
  induction n as [|n IH]; intros g r L.
  - destruct g as [|[|[|[|[|g]]]]]; try lia. destruct r as [|t r]; do 3 eexists; (split; [reflexivity|cbn; lia]).
  - destruct g as [|[|[|[|[|g]]]]]; try lia. apply (item_twice n g). intros h s M. apply IH. lia.
Qed.
Lemma atoks_length : forall n, length (atoks n) = 4 + 9 * n.
Proof.
  induction n as [|n IH]; [reflexivity|].
  change (atoks (S n)) with (["select"; "a"; "from"; "("] ++ atoks n ++ (")" :: tail_toks)). rewrite !app_length, IH. cbn [length tail_toks]. lia.
Qed.
Lemma accepted_stmt : forall n, exists y, parse_stmt None ("select" :: "a" :: "from" :: "(" :: atoks n ++ [")"]) = Ok y /\
  2 ^ n <= parser_calls None ("select" :: "a" :: "from" :: "(" :: atoks n ++ [")"]).
Proof.
  intros n. rewrite <- counted_result. unfold parser_calls, cparse_stmt. set (X := "(" :: atoks n ++ [")"]).
  assert (F : parse_fuel ("select" :: "a" :: "from" :: X) = S (S (S (36 * n + 41)))).
  { assert (K : length X = 6 + 9 * n) by (unfold X; cbn [length]; rewrite app_length, atoks_length; cbn [length]; lia).
    unfold parse_fuel. cbn [length]. unfold str in *. lia. }
  rewrite F. destruct (item_calls n (36 * n + 41) []) as (y & k & q & H & L); [lia|]. apply from_one in H.
  assert (U : until_one_of None FROM_STOPS None [("with", "offset")] X = Ok (X, None, [])).
  { rewrite <- (app_nil_r X) at 1. apply (uo_ok true FROM_STOPS X) with (w' := true);
      [|apply incl_refl|apply marksb_ok; reflexivity|auto|exact I]. apply bl_par with (v := []); [apply atoks_bl|apply bl_nil]. }
  set (g := 36 * n + 41) in *.
  destruct (select_ok (cparsers (S g)) X X y (S k) q eq_refl ltac:(change (tick (c_from_body (cparsers g) X) = (Ok y, (S k, q))); unfold X; rewrite H; reflexivity) U) as (z & S1).
  change (c_stmt (cparsers (S (S (S g)))) None ("select" :: "a" :: "from" :: X)) with (tick (cbind (free (Ok ("select", "a" :: "from" :: X))) (fun _ => tick (c_select_body (cparsers (S g)) None ("a" :: "from" :: X))))).
  cbn [cbind free]. rewrite S1. exists z. cbn. split; [reflexivity|lia].
Qed.
Lemma accepted_calls : forall n, exists y, length (accepted n) = 31 + 27 * n /\ parse_sql (accepted n) = Ok y /\
  2 ^ n <= parser_calls (snd (to_tokens (accepted n))) (fst (to_tokens (accepted n))).
Proof.
  intros n. destruct (accepted_stmt n) as (y & A & B). exists y. split; [apply accepted_length|]. unfold parse_sql. rewrite accepted_tokens. auto.
Qed.
Lemma accepted_no_polynomial : ~ exists c d, forall q n, parse_sql q = Ok n ->
  parser_calls (snd (to_tokens q)) (fst (to_tokens q)) <= c * length q ^ d.
Proof.
  intros (c & d & H). destruct (beyond (c * 3 ^ d) d) as (k & B). destruct (accepted_calls k) as (y & L & A & X). specialize (H _ _ A).
  rewrite L in H. assert (Y : (31 + 27 * k) ^ d <= (3 * (107 + 10 * k)) ^ d) by (apply Nat.pow_le_mono_l; lia).
  rewrite Nat.pow_mul_l in Y. apply (Nat.mul_le_mono_l _ _ c) in Y. lia.
Qed.
Lemma exponential_calls : forall n,
  (exists q m, length q = 16 + 16 * n /\ parse_sql q = Err (ParsingError m)
     /\ 2 ^ n <= parser_calls (snd (to_tokens q)) (fst (to_tokens q)))
  /\ (exists q t, length q = 31 + 27 * n /\ parse_sql q = Ok t
     /\ 2 ^ n <= parser_calls (snd (to_tokens q)) (fst (to_tokens q))).
Proof.
  intros n. split.
  - exists (rejected n), "Missing BY after GROUP". apply rejected_calls.
  - destruct (accepted_calls n) as (y & H). exists (accepted n), y. exact H.
Qed.
