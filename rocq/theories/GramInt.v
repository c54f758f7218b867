(** Integer literals: numerals without leading zeros. *)
From Coq Require Import Decimal DecimalFacts DecimalN.
From Verif Require Import PyStr PyFloat Lib Digits AstLib Ast Tokeniser SpecTok ProofTok ProofTok2 ProofTok3 Parser Api Grammar Scan GramTok GramExpr Render RenderEq LexText SpecRound GramText GramStmt GramCase GramRound.
Local Open Scope str_scope.
Local Open Scope list_scope.

Lemma str_of_Z_N : forall n, str_of_Z (Z.of_N n) = str_of_N n.
Proof. intros [|p]; auto. Qed.
Lemma uint_unorm : forall n, unorm (N.to_uint n) = N.to_uint n.
Proof. intros n. rewrite <- (DecimalN.Unsigned.to_of (N.to_uint n)), DecimalN.Unsigned.of_to. auto. Qed.
Lemma unorm_D0 : forall u d, unorm u = D0 d -> d = Nil.
Proof.
  intros u d H. unfold unorm in H. assert (X := nzhead_nonzero u). destruct (nzhead u) eqn:E; try discriminate; [injection H as <-; auto|].
  exfalso. eapply X. reflexivity.
Qed.
Lemma numeral_Z : forall z, (0 <= z)%Z -> numeral (str_of_Z z).
Proof.
  intros z H. split; [apply str_of_Z_digits; auto|]. rewrite <- (Z2N.id z), str_of_Z_N by auto. unfold str_of_N. generalize (uint_unorm (Z.to_N z)).
  generalize (N.to_uint (Z.to_N z)). intros u U H0. destruct u; try discriminate H0. apply unorm_D0 in U. subst. reflexivity.
Qed.
Lemma uint_cons_D0 : forall c u d, is_digit_c c = true -> uint_cons c u = D0 d -> c = 48%N.
Proof. intros c u d D H. apply digit_cases in D. repeat (destruct D as [->|D]; [first [reflexivity|discriminate H]|]). subst. discriminate H. Qed.
Lemma unorm_id : forall u, u <> Nil -> (forall d, u = D0 d -> d = Nil) -> unorm u = u.
Proof. intros u N H. destruct u; auto; [congruence|]. rewrite (H u eq_refl). reflexivity. Qed.
Lemma numeral_of : forall s, numeral s -> str_of_Z (value s) = s.
Proof.
  intros s [D L]. assert (F := digits_all s D). rewrite <- isdigit_value, str_of_Z_N by auto. unfold str_of_N, N_of_digits.
  rewrite DecimalN.Unsigned.to_of, unorm_id; [apply str_of_uint_of; auto| |].
  - destruct s as [|c s]; [discriminate D|]. cbn [uint_of_str]. cbn [forallb] in F. apply andb_true_iff in F as [C _]. apply digit_cases in C.
    repeat (destruct C as [->|C]; [discriminate|]). subst. discriminate.
  - intros d E. destruct s as [|c s]; [discriminate D|]. cbn [uint_of_str] in E. cbn [forallb] in F. apply andb_true_iff in F as [C _].
    assert (Z := uint_cons_D0 _ _ _ C E). subst. specialize (L eq_refl). injection L as ->. injection E as <-. reflexivity.
Qed.
Lemma numeral_unique : forall s s', numeral s -> numeral s' -> value s = value s' -> s = s'.
Proof. intros s s' H H' E. rewrite <- (numeral_of s), <- (numeral_of s'), E by auto. auto. Qed.

Lemma F2_length : forall {A B} (P : A -> B -> Prop) l l', Forall2 P l l' -> length l = length l'.
Proof. intros A B P l l' H. induction H; cbn; auto. Qed.
Lemma nth_map : forall {A B} (f : A -> B) l i x, nth_error l i = Some x -> nth_error (map f l) i = Some (f x).
Proof. intros A B f l i x H. apply map_nth_error. auto. Qed.
Lemma nth_Forall2 : forall {A B} (P : A -> B -> Prop) l l' i x y, Forall2 P l l' -> nth_error l i = Some x -> nth_error l' i = Some y -> P x y.
Proof. intros A B P l l' i x y H. revert i. induction H; intros [|i] X Y; try discriminate; cbn in *; [injection X as <-; injection Y as <-; auto|eauto]. Qed.
Lemma integers_kept : forall n q ts, statement n = true -> to_tokens q = (ts, None) -> Forall2 reads (entries n) ts ->
  exists t ts', format_sql q = Ok t /\ to_tokens t = (ts', None) /\ length ts' = length ts
  /\ forall i z d, nth_error (entries n) i = Some (Number z) -> nth_error ts i = Some d ->
     exists d', nth_error ts' i = Some d' /\ numeral d' /\ value d' = value d.
Proof.
  intros n q ts W TT H. destruct (tokens_kept n q ts W TT H) as (t & F & S). exists t, (map prints (entries n)).
  split; auto. split; auto. split; [rewrite map_length; eapply F2_length; eauto|]. intros i z d N D. exists (str_of_Z z). split; [apply (nth_map prints _ _ _ N)|].
  destruct (nth_Forall2 _ _ _ _ _ _ H N D) as [X <-]. assert (V := value_nonneg d X). split; [apply numeral_Z; auto|apply value_Z; auto].
Qed.

(** ** SELECT of an integer *)
Definition sel1 (n : node) : node := NSelect [n] false false None None None None None None None None false.
Lemma T_select : forall s ts, T s ts -> T ("select " ++ s) ("select" :: ts).
Proof.
  intros s ts H. change ("select" :: ts) with (["select"] ++ ts). eapply T_app; [fixed|exact H|]. apply joint_l. reflexivity.
Qed.
Lemma sel1_text : forall z, transform (sel1 (NInt z)) = Ok ("SELECT " ++ str_of_Z z).
Proof.
  intros z. unfold transform, sel1. rewrite render_NSelect. cbn [rmap rbind]. rewrite render_NInt. cbn [rbind finish].
  cbn [app]. rewrite !app_nil_r. reflexivity.
Qed.
Lemma integer_formatted : forall d, isdigit d = true -> exists c, numeral c /\ value c = value d
  /\ format_sql ("select " ++ d) = Ok ("SELECT " ++ c) /\ format_sql ("SELECT " ++ c) = Ok ("SELECT " ++ c).
Proof.
  intros d D. assert (V := value_nonneg d D). exists (str_of_Z (value d)). split; [apply numeral_Z; auto|]. split; [apply value_Z; auto|].
  assert (W : statement (sel1 (NInt (value d))) = true) by reflexivity.
  assert (E : entries (sel1 (NInt (value d))) = [Word "select"; Number (value d)]).
  { cbn [entries sel1 map listed app]. rewrite (proj2 (Z.ltb_ge _ _) V). reflexivity. }
  split.
  - rewrite (written (sel1 (NInt (value d))) _ ("select" :: [d]) W), sel1_text; auto.
    + apply T_tokens; [|discriminate]. apply T_select. apply T_word, digit_word, D.
    + rewrite E. repeat constructor; auto.
  - destruct (round_trip _ W) as (s & R & _ & _ & F). rewrite sel1_text in R. injection R as <-. exact F.
Qed.
Lemma negative_formatted : forall d, isdigit d = true -> value d <> 0%Z -> exists c, numeral c /\ value c = value d
  /\ format_sql ("select -" ++ d) = Ok ("SELECT -" ++ c) /\ format_sql ("SELECT -" ++ c) = Ok ("SELECT -" ++ c).
Proof.
  intros d D NZ. assert (V := value_nonneg d D). exists (str_of_Z (value d)). split; [apply numeral_Z; auto|]. split; [apply value_Z; auto|].
  set (z := (- value d)%Z). assert (W : statement (sel1 (NInt z)) = true) by reflexivity.
  assert (E : entries (sel1 (NInt z)) = [Word "select"; Name "-"; Number (value d)]).
  { cbn [entries sel1 map listed app]. rewrite (proj2 (Z.ltb_lt z 0)) by (unfold z; lia). unfold z. rewrite Z.opp_involutive. reflexivity. }
  assert (Q : str_of_Z z = "-" ++ str_of_Z (value d)) by (unfold z; destruct (value d); try lia; reflexivity).
  assert (R := sel1_text z). rewrite Q in R. split.
  - rewrite (written (sel1 (NInt z)) _ ("select" :: ["-"; d]) W); auto.
    + apply T_tokens; [|discriminate]. apply (T_select ("-" ++ d)). change ["-"; d] with (["-"] ++ [d]). apply T_app; [fixed|apply T_word, digit_word, D|]. apply joint_l. reflexivity.
    + rewrite E. repeat constructor; auto.
  - destruct (round_trip _ W) as (s & R' & _ & _ & F). rewrite R in R'. injection R' as <-. exact F.
Qed.
