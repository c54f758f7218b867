(** Decimal texts of numbers. *)
From Coq Require Import Decimal DecimalFacts DecimalN DecimalPos.
From Verif Require Import PyStr Lib Grammar.
Local Open Scope list_scope.

Lemma uint_digits : forall u, forallb is_digit_c (str_of_uint u) = true.
Proof. induction u; cbn; auto. Qed.
Lemma str_of_N_digits : forall n, isdigit (str_of_N n) = true.
Proof.
  intros n. unfold str_of_N, isdigit. rewrite uint_digits.
  assert (N.to_uint n <> Nil) by (destruct n; [discriminate|apply Unsigned.to_uint_nonnil]).
  destruct (N.to_uint n); auto.
Qed.
Lemma str_of_Z_digits : forall z, (0 <= z)%Z -> isdigit (str_of_Z z) = true.
Proof. intros [|p|p] H; cbn [str_of_Z]; try apply str_of_N_digits. lia. Qed.
Lemma uint_of_str_of : forall u, uint_of_str (str_of_uint u) = u.
Proof. induction u; cbn [str_of_uint uint_of_str]; rewrite ?IHu; auto. Qed.
Lemma digits_of_N : forall n, N_of_digits (str_of_N n) = n.
Proof. intros n. unfold N_of_digits, str_of_N. rewrite uint_of_str_of. apply DecimalN.Unsigned.of_to. Qed.
Lemma digits_of_Z : forall z, (0 <= z)%Z -> Z.of_N (N_of_digits (str_of_Z z)) = z.
Proof. intros [|p|p] H; cbn [str_of_Z]; rewrite ?digits_of_N; auto. lia. Qed.
Lemma str_of_uint_of : forall s, forallb is_digit_c s = true -> str_of_uint (uint_of_str s) = s.
Proof.
  induction s as [|c s IH]; intros H; auto. cbn [forallb] in H. apply andb_true_iff in H as [D H]. cbn [uint_of_str].
  unfold is_digit_c in D. apply andb_true_iff in D as [D1 D2]. apply N.leb_le in D1, D2. specialize (IH H).
  assert (E : (c = 48 \/ c = 49 \/ c = 50 \/ c = 51 \/ c = 52 \/ c = 53 \/ c = 54 \/ c = 55 \/ c = 56 \/ c = 57)%N) by lia.
  repeat (destruct E as [->|E]; [cbn; f_equal; exact IH|]). subst. cbn. f_equal. exact IH.
Qed.

(** ** The value of a sequence of digits *)
Lemma digit_cases : forall c, is_digit_c c = true ->
  (c = 48 \/ c = 49 \/ c = 50 \/ c = 51 \/ c = 52 \/ c = 53 \/ c = 54 \/ c = 55 \/ c = 56 \/ c = 57)%N.
Proof. intros c D. unfold is_digit_c in D. apply andb_true_iff in D as [D1 D2]. apply N.leb_le in D1, D2. lia. Qed.
Lemma value_pos : forall s p, forallb is_digit_c s = true ->
  fold_left (fun a c => (10 * a + (Z.of_N c - 48))%Z) s (Zpos p) = Zpos (Pos.of_uint_acc (uint_of_str s) p).
Proof.
  induction s as [|c s IH]; intros p H; auto. cbn [forallb] in H. apply andb_true_iff in H as [D H]. cbn [fold_left uint_of_str].
  apply digit_cases in D.
  assert (X : forall u, Pos.of_uint_acc u p = Pos.of_uint_acc u p) by auto.
  repeat (destruct D as [->|D]; [match goal with |- context [uint_cons ?k ?u] => let v := eval cbv in (uint_cons k) in change (uint_cons k u) with (v u) end; cbn [Pos.of_uint_acc]; rewrite <- IH by auto; f_equal; lia|]).
  subst. match goal with |- context [uint_cons ?k ?u] => let v := eval cbv in (uint_cons k) in change (uint_cons k u) with (v u) end; cbn [Pos.of_uint_acc]; rewrite <- IH by auto; f_equal; lia.
Qed.
Lemma value_digits : forall s, forallb is_digit_c s = true -> value s = Z.of_N (N_of_digits s).
Proof.
  unfold value, N_of_digits, N.of_uint. induction s as [|c s IH]; intros H; auto. cbn [forallb] in H. apply andb_true_iff in H as [D H]. cbn [fold_left uint_of_str].
  apply digit_cases in D. destruct D as [->|D]; [apply IH; auto|].
  repeat (destruct D as [->|D]; [apply (value_pos s); auto|]). subst. apply (value_pos s). auto.
Qed.
Lemma digits_all : forall d, isdigit d = true -> forallb is_digit_c d = true.
Proof. intros [|c d] H; [discriminate|exact H]. Qed.
Lemma isdigit_value : forall d, isdigit d = true -> Z.of_N (N_of_digits d) = value d.
Proof. intros d H. symmetry. apply value_digits, digits_all, H. Qed.
Lemma value_Z : forall z, (0 <= z)%Z -> value (str_of_Z z) = z.
Proof. intros z H. rewrite <- isdigit_value, digits_of_Z; auto. apply str_of_Z_digits. auto. Qed.
Lemma value_nonneg : forall d, isdigit d = true -> (0 <= value d)%Z.
Proof. intros d H. rewrite <- isdigit_value by auto. lia. Qed.
