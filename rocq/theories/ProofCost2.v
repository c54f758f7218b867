(** Queries for which the formatter makes exponentially many calls. *)
From Verif Require Import PyStr Lib AstLib Ast Render RenderEq Tokeniser Parser Api Cost CostLib SpecCost ProofCost Grammar GramTok GramStmt LexText GramText.
Local Open Scope str_scope.
Local Open Scope list_scope.

Definition a1 : node := NCond (NColumn "a") "=" (NInt 1).
(** a = 1 and a = 1 and … (j + 1 times) *)
Fixpoint chain (j : nat) : node := match j with 0 => a1 | S j => NBoolC "and" a1 (chain j) end.
Definition big (k : nat) : node := NSelect [NColumn "a"] false false None (Some (NTable (NColumn "t") false)) (Some (chain (8 + k))) None None None None None false.
Definition big_q (k : nat) : str := "select a from t where " ++ join " and " (repeat "a = 1" (9 + k)).

Lemma chain_wf : forall j, wf Ex (chain j) = true /\ lvl (chain j) <= 4 /\ paren1 (chain j) = true.
Proof.
  induction j as [|j (W & L & P)]; [repeat split; cbn; lia|]. change (chain (S j)) with (NBoolC "and" a1 (chain j)).
  rewrite wf_boolc, W, P. apply Nat.leb_le in L. rewrite L. repeat split. cbn. lia.
Qed.
Lemma big_statement : forall k, statement (big k) = true.
Proof.
  intros k. destruct (chain_wf (8 + k)) as (W & L & P). apply Nat.leb_le in L. unfold statement, big. cbn [with_semi].
  remember (chain (8 + k)) as c eqn:E. cbn [wf oall]. rewrite W, L. unfold clausable. rewrite P. reflexivity.
Qed.
Fixpoint words (j : nat) : list str := match j with 0 => ["a"; "="; "1"] | S j => ["a"; "="; "1"; "and"] ++ words j end.
Lemma chain_toks : forall j, spelling (toks (chain j)) (words j).
Proof.
  induction j as [|j IH]; [repeat constructor|]. change (toks (chain (S j))) with (toks a1 ++ Id "and" :: toks (chain j)). cbn [words app].
  change (toks a1 ++ Id "and" :: toks (chain j)) with (Id "a" :: Id "=" :: Num 1 :: Id "and" :: toks (chain j)). repeat (constructor; [repeat split|]). exact IH.
Qed.
Lemma chain_text : forall j, T (join " and " (repeat "a = 1" (S j))) (words j).
Proof.
  assert (A : T "a = 1" ["a"; "="; "1"]).
  { change (T ("a" ++ " " ++ "=" ++ " " ++ "1") (["a"] ++ "=" :: ["1"])). apply T_op; try discriminate; [fixed|fixed|left; reflexivity]. }
  induction j as [|j IH]; [exact A|]. change (join " and " (repeat "a = 1" (S (S j)))) with ("a = 1" ++ " and " ++ join " and " (repeat "a = 1" (S j))).
  change (words (S j)) with (["a"; "="; "1"] ++ ["and"] ++ words j). apply T_app; [exact A| |apply joint_r; reflexivity]. apply T_app; [fixed|exact IH|apply joint_l; reflexivity].
Qed.
Lemma big_parses : forall k, parse_sql (big_q k) = Ok (big k).
Proof.
  intros k. assert (X : T (big_q k) (["select"; "a"; "from"; "t"; "where"] ++ words (8 + k))).
  { unfold big_q. apply T_app; [fixed|apply chain_text|apply joint_l; reflexivity]. }
  unfold parse_sql. rewrite (T_tokens _ _ X) by discriminate. apply parse_spelling; [apply big_statement|].
  unfold big. cbn [toks]. cbn [map commas app opt_toks]. repeat rewrite app_nil_r. repeat (constructor; [repeat split|]). apply chain_toks.
Qed.
Lemma big_length : forall k, length (big_q k) = 107 + 10 * k.
Proof.
  assert (L : forall j, length (join " and " (repeat "a = 1" (S j))) = 10 * j + 5).
  { induction j as [|j IH]; [reflexivity|]. change (join " and " (repeat "a = 1" (S (S j)))) with ("a = 1 and " ++ join " and " (repeat "a = 1" (S j))). rewrite app_length, IH. cbn [length]. lia. }
  intros k. unfold big_q. rewrite app_length. change (9 + k) with (S (8 + k)). rewrite L. cbn [length]. lia.
Qed.

(** the two texts have the same length *)
Lemma chain_render : forall j m, m = Tr \/ m = NL -> exists t, render m (chain j) = Ok t /\ length t = 10 * j + 5.
Proof.
  induction j as [|j IH]; intros m M; [exists "a = 1"; destruct M as [->| ->]; split; reflexivity|].
  change (chain (S j)) with (NBoolC "and" a1 (chain j)). rewrite render_NBoolC.
  destruct (IH Tr (or_introl eq_refl)) as (t1 & E1 & L1). destruct (IH NL (or_intror eq_refl)) as (t2 & E2 & L2).
  assert (A1 : render Tr a1 = Ok "a = 1") by reflexivity. assert (A2 : render NL a1 = Ok "a = 1") by reflexivity.
  destruct M as [->| ->]; rewrite A1, A2, E1, E2; cbn [rbind].
  - destruct (_ && _); eexists; (split; [reflexivity|]); cbn [finish]; rewrite !app_length, ?L1, ?L2; cbn [length upper map nl]; lia.
  - rewrite andb_false_r. eexists; (split; [reflexivity|]); cbn [finish]; rewrite !app_length, ?L1, ?L2; cbn [length upper map nl]; lia.
Qed.
Lemma chain_calls : forall k m, m <> Str -> 2 ^ k <= snd (crender m (chain (8 + k))).
Proof.
  induction k as [|k IH]; intros m M.
  - change (chain (8 + 0)) with (NBoolC "and" a1 (chain 7)). rewrite crender_NBoolC. generalize (chain 7). intros c. unfold tick. match goal with |- context[match ?x with (_, _) => _ end] => generalize x end. intros [r i]. cbn. lia.
  - change (chain (8 + S k)) with (NBoolC "and" a1 (chain (8 + k))).
    pose proof (IH Tr ltac:(discriminate)) as I1. pose proof (IH NL ltac:(discriminate)) as I2.
    destruct (chain_render (8 + k) Tr (or_introl eq_refl)) as (t1 & E1 & L1). rewrite <- crender_text in E1.
    destruct (chain_render (8 + k) NL (or_intror eq_refl)) as (t2 & E2 & L2). rewrite <- crender_text in E2.
    rewrite crender_NBoolC. remember (chain (8 + k)) as c. clear Heqc IH.
    destruct (crender Tr c) as [r1 k1]. destruct (crender NL c) as [r2 k2]. cbn [fst snd] in *. subst r1 r2.
    assert (A1 : crender Tr a1 = (Ok "a = 1", 3)) by reflexivity. assert (A2 : crender NL a1 = (Ok "a = 1", 3)) by reflexivity.
    rewrite A1, A2. rewrite Nat.pow_succ_r'.
    assert (LL : (length ("a = 1" ++ " " ++ upper "and" ++ " " ++ t1) <? DEFAULT_LINE_LENGTH) = false).
    { apply Nat.ltb_ge. rewrite !app_length, L1. cbn [length upper map]. unfold DEFAULT_LINE_LENGTH. lia. }
    destruct m; try contradiction; unfold tick; cbn [cbind]; cbv zeta; rewrite LL; cbn [andb cbind cret snd]; lia.
Qed.
Lemma big_calls : forall k, 2 ^ k <= calls (big k).
Proof.
  intros k. pose proof (chain_calls k Clause ltac:(discriminate)) as C. unfold calls, big. rewrite crender_NSelect. remember (chain (8 + k)) as c. clear Heqc.
  assert (A1 : cmap (crender Tr) [NColumn "a"] = (Ok ["a"], 1)) by reflexivity. rewrite A1.
  assert (A2 : crender Top (NTable (NColumn "t") false) = (Ok "t", 2)) by reflexivity. rewrite A2. cbv zeta. cbn [cbind cret].
  destruct (crender Clause c) as [[t|e] k1]; cbn [snd] in C; unfold tick; cbn [cbind cret snd]; lia.
Qed.
(** an exponential beats every polynomial *)
Lemma beyond : forall c d, exists k, c * (107 + 10 * k) ^ d < 2 ^ k.
Proof.
  intros c d. set (p := c + 9 * d + 9). exists (2 ^ (2 * p)).
  assert (P : forall x, x < 2 ^ x) by (intros; apply Nat.pow_gt_lin_r; lia).
  set (m := 2 * p). assert (Q : 107 + 10 * 2 ^ m <= 2 ^ (m + 7)).
  { rewrite Nat.pow_add_r. change (2 ^ 7) with 128. assert (1 <= 2 ^ m) by (specialize (P m); lia). lia. }
  assert (X : (107 + 10 * 2 ^ m) ^ d <= 2 ^ ((m + 7) * d)) by (rewrite Nat.pow_mul_r; apply Nat.pow_le_mono_l; exact Q).
  assert (Y : c + (m + 7) * d <= 2 ^ m).
  { assert (Z : (p + 1) * (p + 1) <= 2 ^ m).
    { unfold m. replace (2 * p) with (p + p) by lia. rewrite Nat.pow_add_r. specialize (P p). apply Nat.mul_le_mono; lia. }
    unfold m at 1. subst p. nia. }
  apply Nat.lt_le_trans with (2 ^ c * 2 ^ ((m + 7) * d)).
  - specialize (P c). apply Nat.le_lt_trans with (c * 2 ^ ((m + 7) * d)); [apply Nat.mul_le_mono_l; exact X|]. apply Nat.mul_lt_mono_pos_r; [|exact P].
    pose proof (Nat.pow_gt_lin_r 2 ((m + 7) * d) ltac:(lia)). lia.
  - rewrite <- Nat.pow_add_r. apply Nat.pow_le_mono_r; [lia|exact Y].
Qed.
Lemma no_polynomial : ~ exists c d, forall q n, parse_sql q = Ok n -> calls n <= c * length q ^ d.
Proof.
  intros (c & d & H). destruct (beyond c d) as (k & B). specialize (H _ _ (big_parses k)). rewrite big_length in H. pose proof (big_calls k). lia.
Qed.
Lemma exponential : forall k, exists q n, length q = 107 + 10 * k /\ parse_sql q = Ok n /\ statement n = true /\ 2 ^ k <= calls n.
Proof. intros k. exists (big_q k), (big k). auto using big_length, big_parses, big_statement, big_calls. Qed.
Lemma tree_bound : forall n, calls n <= size n * 2 ^ nesting n.
Proof. intros n. apply calls_bound. Qed.
Lemma brief_linear : forall n, brief n -> calls n <= size n.
Proof. intros n B. apply calls_brief; [exact B|discriminate|]. destruct n; auto. left. split; discriminate. Qed.
Lemma same_text : forall n, fst (crender Tr n) = transform n.
Proof. intros n. apply crender_text. Qed.
(** A check for concrete trees *)
Fixpoint everynode (k : nat) (p : node -> bool) (n : node) : bool :=
  match k with 0 => false | S k => p n && forallb (everynode k p) (children n) end.
Definition briefb (x : node) : bool :=
  match x with
  | NBoolC op l r => match transform l, transform r with Ok tl, Ok tr => length (tl ++ " " ++ op ++ " " ++ tr) <? 88 | _, _ => true end
  | _ => true
  end && forallb (fun c => match c with NParen _ => match transform c with Ok t => negb (has 10%N t) | _ => true end | _ => true end) (conditions x).
Lemma brief_check : forall k n, everynode k briefb n = true -> brief n.
Proof.
  intros k n H x O. assert (X : briefb x = true).
  { revert k H. induction O as [|c n I O IH]; intros [|k] H; try discriminate H; cbn [everynode] in H; apply andb_true_iff in H as [A B]; auto. rewrite forallb_forall in B. eapply IH, B, I. }
  unfold briefb in X. apply andb_true_iff in X as [X Y]. rewrite forallb_forall in Y. split.
  - intros op l r tl tr -> E1 E2. rewrite E1, E2 in X. apply Nat.ltb_lt, X.
  - intros args t I E J. specialize (Y _ I). cbn beta iota in Y. rewrite E in Y. apply negb_true_iff in Y. assert (has 10%N t = true) by (apply has_In; exact J). congruence.
Qed.
