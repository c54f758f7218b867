(** General lemmas about strings and the exception monad. *)
From Verif Require Import PyStr.
Local Open Scope str_scope.
Local Open Scope list_scope.

Lemma str_eqb_refl : forall s, str_eqb s s = true.
Proof. induction s; cbn; auto. rewrite N.eqb_refl; auto. Qed.

Lemma str_eqb_eq : forall a b, str_eqb a b = true <-> a = b.
Proof.
  split; [|intros ->; apply str_eqb_refl].
  revert b; induction a; destruct b; cbn; try discriminate; auto.
  intros H; apply andb_prop in H as [H1 H2]. apply N.eqb_eq in H1. f_equal; auto.
Qed.

Lemma str_eqb_neq : forall a b, str_eqb a b = false <-> a <> b.
Proof.
  intros. split; intros H.
  - intros ->. now rewrite str_eqb_refl in H.
  - destruct (str_eqb a b) eqn:E; auto. apply str_eqb_eq in E; contradiction.
Qed.

Lemma str_eqb_spec : forall a b, reflect (a = b) (str_eqb a b).
Proof. intros. apply iff_reflect. symmetry. apply str_eqb_eq. Qed.

Lemma str_eqb_sym : forall a b, str_eqb a b = str_eqb b a.
Proof. intros. destruct (str_eqb_spec a b), (str_eqb_spec b a); congruence. Qed.

Lemma str_eq_dec : forall a b : str, {a = b} + {a <> b}.
Proof. intros. destruct (str_eqb_spec a b); auto. Qed.

Lemma mem_In : forall s l, mem s l = true <-> In s l.
Proof.
  intros. unfold mem. rewrite existsb_exists. split.
  - intros [x [H1 H2]]. apply str_eqb_eq in H2. now subst.
  - intros. exists s. split; auto. apply str_eqb_refl.
Qed.

Lemma mem_false : forall s l, mem s l = false <-> ~ In s l.
Proof. intros. rewrite <- mem_In. destruct (mem s l); split; congruence. Qed.

Lemma has_In : forall c s, has c s = true <-> In c s.
Proof.
  intros. unfold has. rewrite existsb_exists. split.
  - intros [x [H1 H2]]. apply N.eqb_eq in H2. now subst.
  - intros. exists c. split; auto. apply N.eqb_refl.
Qed.
Lemma has_false : forall c s, has c s = false <-> ~ In c s.
Proof. intros. rewrite <- has_In. destruct (has c s); split; congruence. Qed.
Lemma has_app : forall c a b, has c (a ++ b) = has c a || has c b.
Proof. intros. unfold has. apply existsb_app. Qed.

Lemma rbind_Ok : forall {A B} (r : R A) (f : A -> R B) b,
  rbind r f = Ok b -> exists a, r = Ok a /\ f a = Ok b.
Proof. intros. destruct r; cbn in *; [eauto | discriminate]. Qed.

Lemma rbind_Err : forall {A B} (r : R A) (f : A -> R B) e,
  rbind r f = Err e -> r = Err e \/ exists a, r = Ok a /\ f a = Err e.
Proof. intros. destruct r; cbn in *; [eauto | left; congruence]. Qed.

Lemma rassert_Ok : forall b u, rassert b = Ok u -> b = true.
Proof. unfold rassert. destruct b; congruence. Qed.

(** Take apart a hypothesis [H : x <- e ;; f = Ok b] *)
Ltac inv_bind H :=
  let a := fresh "a" in let H1 := fresh "Hb" in
  apply rbind_Ok in H as [a [H1 H]].

Lemma rmap_Ok : forall {A B} (f : A -> R B) l l',
  rmap f l = Ok l' <-> Forall2 (fun x y => f x = Ok y) l l'.
Proof.
  intros A B f l. induction l; intros l'; cbn.
  - split; intros H; [injection H as <-; constructor | inversion H; auto].
  - split; intros H.
    + inv_bind H. inv_bind H. injection H as <-. constructor; auto. apply IHl; auto.
    + inversion H; subst. rewrite H2. cbn. apply IHl in H4. rewrite H4. reflexivity.
Qed.

Lemma rmap_app : forall {A B} (f : A -> R B) a b,
  rmap f (a ++ b) = (x <- rmap f a ;; y <- rmap f b ;; Ok (x ++ y)).
Proof.
  intros. induction a; cbn.
  - destruct (rmap f b); reflexivity.
  - destruct (f a); cbn; auto. rewrite IHa. destruct (rmap f a0); cbn; auto.
    destruct (rmap f b); reflexivity.
Qed.

Lemma rmap_ext : forall {A B} (f g : A -> R B) l, (forall x, In x l -> f x = g x) ->
  rmap f l = rmap g l.
Proof.
  induction l; intros H; cbn; auto. rewrite H by (left; auto). rewrite IHl; auto.
  intros. apply H. right; auto.
Qed.
Lemma rmap_length : forall {A B} (f : A -> R B) l l', rmap f l = Ok l' -> length l' = length l.
Proof. intros. apply rmap_Ok in H. symmetry. induction H; cbn; congruence. Qed.

Lemma lower_app : forall a b, lower (a ++ b) = lower a ++ lower b.
Proof. intros. apply map_app. Qed.
Lemma upper_app : forall a b, upper (a ++ b) = upper a ++ upper b.
Proof. intros. apply map_app. Qed.
Lemma lower_c_idem : forall c, lower_c (lower_c c) = lower_c c.
Proof.
  intros. unfold lower_c. destruct (is_upper_c c) eqn:E; [|now rewrite E].
  unfold is_upper_c in *. apply andb_prop in E as [E1 E2]. apply N.leb_le in E1, E2.
  destruct (N.leb_spec (c + 32) 90); [lia|]. now rewrite andb_false_r.
Qed.
Lemma lower_idem : forall s, lower (lower s) = lower s.
Proof. intros. unfold lower. rewrite map_map. apply map_ext. apply lower_c_idem. Qed.
Lemma lower_upper_c : forall c, lower_c (upper_c c) = lower_c c.
Proof.
  intros. unfold lower_c, upper_c, is_lower_c, is_upper_c.
  destruct (N.leb_spec 97 c), (N.leb_spec c 122); cbn;
    destruct (N.leb_spec 65 c), (N.leb_spec c 90); cbn; try lia; auto;
    repeat match goal with |- context [ (?a <=? ?b)%N ] => destruct (N.leb_spec a b); cbn end; lia.
Qed.
Lemma lower_upper : forall s, lower (upper s) = lower s.
Proof. intros. unfold lower, upper. rewrite map_map. apply map_ext. apply lower_upper_c. Qed.
Lemma upper_lower_c : forall c, upper_c (lower_c c) = upper_c c.
Proof.
  intros. unfold lower_c, upper_c, is_lower_c, is_upper_c.
  destruct (N.leb_spec 97 c), (N.leb_spec c 122); cbn;
    destruct (N.leb_spec 65 c), (N.leb_spec c 90); cbn; try lia; auto;
    repeat match goal with |- context [ (?a <=? ?b)%N ] => destruct (N.leb_spec a b); cbn end; lia.
Qed.
Lemma upper_lower : forall s, upper (lower s) = upper s.
Proof. intros. unfold lower, upper. rewrite map_map. apply map_ext. apply upper_lower_c. Qed.
Lemma length_lower : forall s, length (lower s) = length s.
Proof. intros. apply map_length. Qed.

Lemma startswith_app : forall p s, startswith p (p ++ s) = true.
Proof. induction p; cbn; auto. intros. now rewrite N.eqb_refl, IHp. Qed.
Lemma startswith_true : forall p s, startswith p s = true <-> exists r, s = p ++ r.
Proof.
  split.
  - revert s. induction p; cbn; intros s H; [eauto|]. destruct s; [discriminate|].
    apply andb_prop in H as [H1 H2]. apply N.eqb_eq in H1. apply IHp in H2 as [r ->]. subst. eauto.
  - intros [r ->]. apply startswith_app.
Qed.
Lemma endswith_true : forall p s, endswith p s = true <-> exists r, s = r ++ p.
Proof.
  intros. unfold endswith. rewrite startswith_true. split.
  - intros [r H]. exists (rev r). apply (f_equal (@rev N)) in H.
    rewrite rev_involutive, rev_app_distr, rev_involutive in H. auto.
  - intros [r ->]. exists (rev r). apply rev_app_distr.
Qed.
Lemma contains_true : forall p s, contains p s = true <-> exists a b, s = a ++ p ++ b.
Proof.
  intros p s. split.
  - induction s; cbn; intros H.
    + rewrite orb_false_r in H. apply startswith_true in H as [r H]. exists [], r. auto.
    + apply orb_prop in H as [H|H].
      * apply startswith_true in H as [r H]. exists [], r. auto.
      * apply IHs in H as [x [y ->]]. exists (a :: x), y. auto.
  - intros [a [b ->]]. induction a; cbn.
    + pose proof (startswith_app p b) as H. destruct (p ++ b); cbn; rewrite H; auto.
    + rewrite IHa. apply orb_true_r.
Qed.
