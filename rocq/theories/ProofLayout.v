(** Lemmas about the layout. *)
From Verif Require Import PyStr Lib AstLib Ast Render RenderEq SpecLayout LexText.
Local Open Scope str_scope.
Local Open Scope list_scope.

(** ** Lines *)
Lemma lines_nonnil : forall s, lines s <> [].
Proof. intros s. unfold lines. destruct s as [|c s]; [discriminate|]. cbn [split]. destruct (N.eqb c 10); [discriminate|]. destruct (split 10 s); discriminate. Qed.
Lemma lines_nl : forall a b, lines (a ++ nl ++ b) = lines a ++ lines b.
Proof.
  intros a b. induction a as [|c a IH]; [reflexivity|]. unfold lines in *. cbn [app split]. destruct (N.eqb c 10); [cbn [app]; f_equal; exact IH|].
  rewrite IH. destruct (split 10 a) eqn:E; [exfalso; eapply (lines_nonnil a); exact E|]. reflexivity.
Qed.
Lemma lines_none : forall s, has_nl s = false -> lines s = [s].
Proof.
  induction s as [|c s IH]; intros H; auto. unfold has_nl, has in *. cbn [existsb] in H. apply orb_false_iff in H as [H1 H2]. unfold lines in *. cbn [split].
  rewrite N.eqb_sym, H1, (IH H2). auto.
Qed.
Lemma join_lines : forall s, join nl (lines s) = s.
Proof.
  induction s as [|c s IH]; auto. unfold lines in *. cbn [split]. destruct (N.eqb_spec c 10) as [->|N].
  - destruct (split 10 s) eqn:E; [exfalso; eapply (lines_nonnil s); exact E|]. cbn [join] in *. cbn [app]. rewrite IH. reflexivity.
  - destruct (split 10 s) as [|p l] eqn:E; [exfalso; eapply (lines_nonnil s); exact E|]. cbn [join] in *. destruct l; cbn [app]; rewrite <- IH; auto.
Qed.
Lemma ind_nl : forall k, ind k nl = nl ++ spaces k.
Proof. intros k. unfold nl. rewrite ind_cons. cbn [N.eqb Pos.eqb app]. f_equal. apply app_nil_r. Qed.
Lemma lines_ind : forall k s, lines (spaces k ++ ind k s) = map (app (spaces k)) (lines s).
Proof.
  intros k s. rewrite <- (join_lines s) at 1. generalize (lines_nonnil s).
  assert (X : Forall (fun l => has_nl l = false) (lines s)).
  { clear. induction s as [|c s IH]; [repeat constructor|]. unfold lines in *. cbn [split]. destruct (N.eqb_spec c 10); [constructor; auto|].
    assert (Q : forall l, has_nl l = false -> has_nl (c :: l) = false) by (intros l H; unfold has_nl, has in *; cbn [existsb]; rewrite (proj2 (N.eqb_neq 10 c)) by congruence; auto).
    destruct (split 10 s); [constructor; auto; apply Q; reflexivity|]. inversion IH; subst. constructor; auto. }
  assert (SP : forall l, has_nl l = false -> has_nl (spaces k ++ l) = false).
  { intros l H. unfold has_nl in *. rewrite has_app, H, orb_false_r. apply has_false. intros I. apply repeat_spec in I. discriminate I. }
  assert (IN : forall l, has_nl l = false -> ind k l = l) by (intros; apply ind_none, has_false; auto).
  induction X as [|x l H X IH]; intros N; [congruence|]. destruct l as [|y l].
  - cbn [join map]. rewrite IN, lines_none by auto. auto.
  - assert (E : join nl (x :: y :: l) = x ++ nl ++ join nl (y :: l)) by reflexivity. rewrite E. rewrite !ind_app, IN by auto.
    replace (ind k nl) with (nl ++ spaces k) by (symmetry; apply ind_nl). rewrite <- !app_assoc. rewrite (app_assoc (spaces k) x). rewrite lines_nl, lines_none, IH by (auto; discriminate). reflexivity.
Qed.

(** ** Texts inside texts *)
Definition chunk (j : nat) (s t : str) : Prop := exists a b, t = a ++ ind j s ++ b.
Lemma ind0 : forall s, ind 0 s = s.
Proof. induction s as [|c s IH]; auto. rewrite ind_cons, IH. destruct (N.eqb_spec c 10); subst; auto. Qed.
Lemma ind_sp : forall k j, ind k (repeat 32%N j) = repeat 32%N j.
Proof. intros k j. apply ind_none. intros I. apply repeat_spec in I. discriminate I. Qed.
Lemma ind_ind : forall j k s, ind j (ind k s) = ind (j + k) s.
Proof.
  intros j k s. induction s as [|c s IH]; auto. rewrite !ind_cons, ind_app, IH. f_equal. destruct (N.eqb_spec c 10) as [->|N].
  - rewrite ind_cons, ind_sp, repeat_app. reflexivity.
  - rewrite ind_cons. destruct (N.eqb_spec c 10); [congruence|]. reflexivity.
Qed.
Lemma chunk_refl : forall s, chunk 0 s s.
Proof. intros s. exists [], []. rewrite ind0, app_nil_r. auto. Qed.
Lemma chunk_l : forall j s a b, chunk j s a -> chunk j s (a ++ b).
Proof. intros j s a b (x & y & ->). exists x, (y ++ b). rewrite <- !app_assoc. auto. Qed.
Lemma chunk_r : forall j s a b, chunk j s b -> chunk j s (a ++ b).
Proof. intros j s a b (x & y & ->). exists (a ++ x), y. rewrite <- !app_assoc. auto. Qed.
Lemma chunk_ind : forall k j s a, chunk j s a -> chunk (k + j) s (ind k a).
Proof. intros k j s a (x & y & ->). exists (ind k x), (ind k y). rewrite !ind_app, ind_ind. auto. Qed.
Lemma chunk_trans : forall i j a b c, chunk i a b -> chunk j b c -> chunk (j + i) a c.
Proof. intros i j a b c H (x & y & ->). apply chunk_r, chunk_l, chunk_ind, H. Qed.
(** some indentation, some indentation of at least one *)
Definition within (s t : str) : Prop := exists j, chunk j s t.
Definition below1 (s t : str) : Prop := exists j, 1 <= j /\ chunk j s t.
Lemma within_refl : forall s, within s s.
Proof. intros s. exists 0. apply chunk_refl. Qed.
Lemma within_l : forall s a b, within s a -> within s (a ++ b).
Proof. intros s a b (j & H). exists j. apply chunk_l; auto. Qed.
Lemma within_r : forall s a b, within s b -> within s (a ++ b).
Proof. intros s a b (j & H). exists j. apply chunk_r; auto. Qed.
Lemma within_indent : forall s a, within s a -> within s (indent a).
Proof. intros s a (j & H). exists (1 + j). rewrite indent_ind. apply chunk_ind; auto. Qed.
Lemma within_indent2 : forall s a, within s a -> within s (indent2 a).
Proof. intros s a (j & H). exists (2 + j). rewrite indent2_ind. apply chunk_ind; auto. Qed.
Lemma within_trans : forall a b c, within a b -> within b c -> within a c.
Proof. intros a b c (i & H) (j & G). exists (j + i). eapply chunk_trans; eauto. Qed.
Lemma within_join : forall s x sep l, In x l -> within s x -> within s (join sep l).
Proof.
  intros s x sep l I W. induction l as [|y l IH]; [destruct I|]. destruct l as [|z l].
  - destruct I as [->|[]]. exact W.
  - change (within s (y ++ sep ++ join sep (z :: l))). destruct I as [->|I]; [apply within_l; auto|]. apply within_r, within_r; auto.
Qed.
Lemma within_join_map : forall s (x : str) sep f (l : list str), In x l -> within s (f x) -> within s (join sep (map f l)).
Proof. intros s x sep f l I W. eapply within_join; [apply in_map; exact I|exact W]. Qed.
Lemma within_indent1 : forall s a, within s a -> below1 s (indent a).
Proof. intros s a (j & H). exists (1 + j). split; [lia|]. rewrite indent_ind. apply chunk_ind; auto. Qed.
Lemma within_finish : forall m t, within t (finish m t).
Proof.
  assert (R := within_refl). intros m t. destruct m; cbn [finish]; auto.
  - unfold clause_text. destruct (has_nl t); auto using within_r, within_indent.
  - unfold when_text. destruct (has_nl t); auto using within_r, within_l, within_indent2.
  - unfold side_wrap. destruct k; auto. apply within_r, within_l, within_indent, within_r. auto.
Qed.
(** [u] on lines of its own, after [k] spaces *)
Definition own (k : nat) (u t : str) : Prop := exists a b, t = a ++ nl ++ spaces k ++ ind k u ++ nl ++ b.
Lemma own_chunk : forall j k u s t, own k u s -> chunk j s t -> own (j + k) u t.
Proof.
  intros j k u s t (a & b & ->) (x & y & ->). exists (x ++ ind j a), (spaces j ++ ind j b ++ y).
  rewrite !ind_app, ind_ind. unfold spaces. rewrite ind_sp.
  replace (ind j nl) with (nl ++ spaces j) by (symmetry; apply ind_nl).
  unfold spaces. rewrite repeat_app, <- !app_assoc. auto.
Qed.
Lemma own_block : forall k u t, own k u t -> block k u t.
Proof.
  intros k u t (a & b & ->). exists (lines a), (lines b). rewrite lines_nl, <- lines_ind. f_equal. rewrite (app_assoc (spaces k)), lines_nl. auto.
Qed.
Lemma own_nl : forall k u t, own k u t -> has_nl t = true.
Proof. intros k u t (a & b & ->). unfold has_nl. rewrite !has_app. cbn. apply orb_true_r. Qed.
