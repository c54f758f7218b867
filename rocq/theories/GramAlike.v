(** The tree read from the printed text prints like the one it was printed from. *)
From Verif Require Import PyStr PyFloat Lib AstLib Ast Grammar Scan GramTok Render RenderEq GramUp.
Local Open Scope str_scope.
Local Open Scope list_scope.

Lemma rmap_up : forall {B} (f g : node -> R B) l, (forall x, In x l -> f (up x) = g x) -> rmap f (map up l) = rmap g l.
Proof.
  intros B f g l. induction l as [|x l IH]; auto. intros H. cbn [map rmap]. rewrite H by (left; auto). rewrite IH by (intros; apply H; right; auto). auto.
Qed.
Lemma upper_btw : forall p, lower p = "between" -> upper p = "BETWEEN".
Proof. intros p H. rewrite <- upper_lower, H. reflexivity. Qed.
Lemma upper_pred : forall p, upper (if mem p ["is not"; "not in"] then p else upper p) = upper p.
Proof. intros p. destruct (mem p _); auto using upper_idem. Qed.
Definition alike (n : node) : Prop := forall c m, wf c n = true -> (m = Str -> is_sel n = false) -> render m (up n) = render m n.
Lemma bind_ext : forall {A B} (a b : R A) (f g : A -> R B), a = b -> (forall x, f x = g x) -> rbind a f = rbind b g.
Proof. intros A B a b f g -> H. destruct b; cbn; auto. Qed.
Lemma lvl_sel : forall k e, upto k e = true -> is_sel e = false.
Proof. intros k e W. apply upto_and in W as [W _]. destruct e; auto. Qed.
Lemma ex_sel : forall e, wf Ex e = true -> is_sel e = false.
Proof. intros e W. destruct e; auto. Qed.
Section ALIKE.
Variable n : node.
Hypothesis H : forall x, size x < size n -> alike x.
Lemma al_ex : forall x m, size x < size n -> wf Ex x = true -> render m (up x) = render m x.
Proof. intros x m S W. apply (H x S Ex); auto. intros _. apply ex_sel. auto. Qed.
Lemma al_exc : forall x m, In x (children n) -> wf Ex x = true -> render m (up x) = render m x.
Proof. intros x m S W. apply al_ex; auto. apply children_size; auto. Qed.
Lemma al_up : forall k x m, In x (children n) -> upto k x = true -> render m (up x) = render m x.
Proof. intros k x m S W. apply al_exc; auto. apply upto_and in W. tauto. Qed.
Lemma al_ups : forall k l m, incl l (children n) -> forallb (upto k) l = true -> rmap (render m) (map up l) = rmap (render m) l.
Proof. intros k l m S W. apply rmap_up. intros x X. rewrite forallb_forall in W. apply (al_up k); auto. Qed.
Lemma al_arg : forall x m, size x < size n -> m <> Str -> argok x = true -> render m (up x) = render m x.
Proof.
  intros x m S M W. unfold argok in W. destruct (is_sel x); apply andb_true_iff in W as [W _]; eapply (H x S); eauto; congruence.
Qed.
Lemma al_argsz : forall l m, (forall x, In x l -> size x < size n) -> m <> Str -> forallb argok l = true -> rmap (render m) (map up l) = rmap (render m) l.
Proof. intros l m S M W. apply rmap_up. intros x X. rewrite forallb_forall in W. apply al_arg; auto. Qed.
Lemma al_args : forall l m, incl l (children n) -> m <> Str -> forallb argok l = true -> rmap (render m) (map up l) = rmap (render m) l.
Proof. intros l m S M W. apply al_argsz; auto. intros. apply children_size; auto. Qed.
Lemma al_items : forall l m, incl l (children n) -> itemsok l = true -> rmap (render m) (map up l) = rmap (render m) l.
Proof.
  intros l m S W. apply rmap_up. intros x X. unfold itemsok in W. apply andb_true_iff in W as [_ W]. rewrite forallb_forall in W. specialize (W _ X). destruct x; try discriminate W.
  cbn [up]. rewrite !render_NOrderItem. cbn [itemok] in W. bools. rewrite al_ex; auto. eapply Nat.lt_trans; [|apply children_size, S, X]. apply children_size. left; auto.
Qed.
End ALIKE.
Lemma map_nil_match : forall {A B C} (f : A -> B) l (x : C) y, match map f l with [] => x | _ => y end = match l with [] => x | _ => y end.
Proof. intros A B C f [|? ?]; auto. Qed.
Lemma al_case : forall n, (forall x, size x < size n -> alike x) -> wf Ex n = true -> forall m, render m (up n) = render m n.
Proof.
  intros n H W m. destruct n; try discriminate W.
  - rewrite wf_fun in W. bools. cbn [up]. rewrite !render_NFun. rewrite (al_args _ H) by (auto; try discriminate; intros x X; child).
    apply bind_ext; auto. apply bind_ext; auto. intros l. unfold call_text. rewrite upper_idem. auto.
  - rewrite wf_cast in W. bools. cbn [up]. rewrite !render_NCast, upper_idem. rewrite (al_exc _ H) by (auto; child). auto.
  - rewrite wf_count in W. bools. cbn [up]. rewrite !render_NCount. rewrite (al_args _ H) by (auto; try discriminate; intros x X; child). auto.
  - rewrite wf_arrayagg in W. bools. cbn [up]. rewrite !render_NArrayAgg. rewrite (al_exc _ H) by (auto; child).
    destruct order as [l|]; auto. cbn [option_map oall] in *. rewrite (al_items _ H) by (auto; intros x X; child). auto.
  - rewrite wf_filtered in W. bools. cbn [up]. rewrite !render_NFiltered. rewrite !(al_exc _ H) by (auto; child). auto.
  - rewrite wf_analytics in W. bools. cbn [up]. rewrite !render_NAnalytics. rewrite !(al_exc _ H) by (auto; child).
    apply bind_ext; auto. apply bind_ext; auto. intros f'. apply bind_ext.
    { destruct partition as [[|x l]|]; auto. cbn [option_map oall] in *. bools. cbn [map].
      change (rmap (render Tr) (up x :: map up l)) with (rmap (render Tr) (map up (x :: l))). rewrite (al_ups _ H 4) by (auto; intros y Y; child). auto. }
    intros p. apply bind_ext.
    { destruct order as [l|]; auto. cbn [option_map oall] in *. rewrite (al_items _ H) by (auto; intros x X; child). auto. }
    intros o. destruct frame as [[rr f1]|]; auto. cbn [option_map fst snd]. rewrite !upper_idem. auto.
  - cbn [up]. rewrite !render_NColumn, column_idem. auto.
  - rewrite wf_chained in W. bools. cbn [up]. rewrite !render_NChained. rewrite !(al_exc _ H) by (auto; child). auto.
  - rewrite wf_datepart in W. bools. cbn [up]. rewrite !render_NDatePart, upper_idem. rewrite !(al_exc _ H) by (auto; child). auto.
  - auto.
  - auto.
  - auto.
  - auto.
  - auto.
  - rewrite wf_paren in W. cbn [up]. rewrite !render_NParen.
    assert (F : rmap (fun a => t <- render Sub a ;; Ok (if is_select a then nl ++ t ++ nl else t)) (map up args) = rmap (fun a => t <- render Sub a ;; Ok (if is_select a then nl ++ t ++ nl else t)) args).
    { apply rmap_up. intros x X. rewrite forallb_forall in W. rewrite up_select, (al_arg _ H) by (auto; try discriminate; apply children_size; child). auto. }
    rewrite F. destruct args as [|a l]; auto. cbn [map]. cbn [forallb] in W. apply andb_true_iff in W as [W _].
    destruct m; try reflexivity; rewrite ?up_select, (al_arg _ H) by (auto; try discriminate; apply children_size; child); auto.
  - rewrite wf_array in W. cbn [up]. rewrite !render_NArray. rewrite (al_args _ H) by (auto; try discriminate; intros x X; child). auto.
  - rewrite wf_alias in W. bools. cbn [up]. rewrite !render_NAlias. rewrite !(al_exc _ H) by (auto; child).
    destruct alias as [t|x]; auto. assert (WX : wf Ex x = true) by (unfold aliasok in *; destruct with_as; bools; auto). rewrite !(al_exc _ H) by (auto; child). auto.
  - rewrite wf_index in W. bools. cbn [up]. rewrite !render_NIndex. rewrite !(al_exc _ H), (al_args _ H) by (auto; try discriminate; try (intros x X); child). auto.
  - rewrite wf_arith in W. bools. cbn [up]. rewrite !render_NArith. rewrite !(al_exc _ H) by (auto; child). auto.
  - rewrite wf_bitwise in W. bools. cbn [up]. rewrite !render_NBitwise. rewrite !(al_exc _ H) by (auto; child). auto.
  - rewrite up_cond. rewrite wf_cond in W. destruct (str_eqb (lower pred) "between") eqn:B.
    + destruct n2; try (rewrite andb_false_r in W; discriminate W). bools. subst. cbn [up btw]. rewrite !render_NCond, !render_NBoolC, upper_idem.
      rewrite (al_exc _ H) by (auto; child). rewrite !(al_ex _ H) by (auto; cbn [size]; lia). auto.
    + bools. rewrite !render_NCond. rewrite !(al_exc _ H) by (auto; child). rewrite upper_pred. auto.
  - rewrite wf_boolc in W. bools. cbn [up]. rewrite !render_NBoolC, upper_idem. rewrite !(al_exc _ H) by (auto; child). auto.
  - rewrite wf_neg in W. bools. cbn [up]. rewrite !render_NNeg, up_paren. rewrite !(al_exc _ H) by (auto; child). auto.
  - rewrite wf_except in W. bools. cbn [up]. rewrite !render_NExcept. rewrite !(al_exc _ H), (al_args _ H) by (auto; try discriminate; try (intros x X); child). auto.
  - rewrite wf_replace in W. bools. cbn [up]. rewrite !render_NReplace. rewrite !(al_exc _ H), (al_args _ H) by (auto; try discriminate; try (intros x X); child). auto.
  - rewrite wf_case in W. bools. cbn [up]. rewrite !render_NCase. apply bind_ext; auto. apply bind_ext.
    { destruct e as [x|]; auto. cbn [option_map oall] in *. bools. rewrite (al_exc _ H) by (auto; child). auto. }
    intros e1. apply bind_ext.
    { assert (Q : forall q, In q whens -> size (fst q) < size (NCase e whens els) /\ size (snd q) < size (NCase e whens els)).
      { intros q I. split; apply children_size; cbn [children]; apply in_or_app; right; apply in_or_app; [left; apply in_map; auto|right; apply in_or_app; left; apply in_map; auto]. }
      match goal with X : forallb wtok _ = true |- _ => rename X into WT end. rewrite forallb_forall in WT. revert Q WT. generalize whens at 1 4 5 6. intros l. induction l as [|q l IHl]; auto. intros Q WT. cbn [map rmap fst snd].
      destruct (Q q (or_introl eq_refl)). assert (V := WT q (or_introl eq_refl)). unfold wtok in V. bools. rewrite !(al_ex _ H) by auto. rewrite IHl; [auto|intros; apply Q; right; auto|intros; apply WT; right; auto]. }
    intros ws. destruct els as [x|]; auto. cbn [option_map oall] in *. bools. rewrite (al_exc _ H) by (auto; child). auto.
Qed.

Lemma al_from : forall n, (forall x, size x < size n -> alike x) -> wf Fr n = true -> forall m, render m (up n) = render m n.
Proof.
  intros n H W m.
  assert (HF : forall x m, In x (children n) -> wf Fr x = true -> render m (up x) = render m x).
  { intros x m' X V. apply (H x (children_size _ _ X) Fr); auto. intros _. destruct x; auto; discriminate V. }
  destruct n; try discriminate W.
  - destruct args as [|f [|? ?]]; try discriminate W. change ((if is_sel f || is_wth f then wf St f else wf Fr f) = true) in W.
    assert (X : forall m', m' <> Str -> render m' (up f) = render m' f).
    { intros m' M. destruct (is_sel f || is_wth f); [|apply HF; auto; child]. apply (H f (children_size (NParen [f]) f (or_introl eq_refl)) St); auto. congruence. }
    cbn [up map]. rewrite !render_NParen. cbn [rmap]. rewrite up_select. destruct m; rewrite !X by discriminate; auto.
  - rewrite wf_falias in W. bools. cbn [up]. rewrite !render_NAlias. rewrite !HF by (auto; child).
    destruct alias as [t|x]; auto. cbn [alsok] in *. bools. rewrite !(al_exc _ H) by (auto; child). auto.
  - rewrite wf_table in W. assert (V : wf Ex n = true) by (destruct brackets; [bools; auto|unfold tableok in W; bools; auto]).
    cbn [up]. rewrite !render_NTable. rewrite !(al_exc _ H) by (auto; child). auto.
  - rewrite wf_unnest in W. bools. rewrite up_unnest, !render_NUnnest. match goal with X : unnestok _ = true |- _ => rename X into U end.
    assert (X : render Tr (unn (up n)) = render Tr n); [|rewrite X; auto]. destruct n; try discriminate U; cbn [unnestok] in U.
    + bools. subst. cbn [up unn]. rewrite !render_NFun. rewrite (al_argsz _ H); auto; try discriminate. intros x X. cbn [size]. apply sizes_In in X. lia.
    + destruct n; try discriminate U. bools. subst. cbn [up unn]. rewrite !render_NAlias, !render_NFun.
      rewrite (al_argsz _ H); auto; try discriminate; [|intros x X; cbn [size]; apply sizes_In in X; lia].
      destruct alias0 as [t|x]; auto. cbn [alsok] in *. bools. rewrite (al_ex _ H); auto. cbn [size]. lia.
  - rewrite wf_join in W. bools. cbn [up]. rewrite !render_NJoin. rewrite !HF by (auto; child).
    match goal with X : joinok _ _ _ _ = true |- _ => rename X into U end. unfold joinok in U.
    assert (Q : forall c, In c (children (NJoin ty n1 n2 on_ using_)) -> condok c = true -> render Clause (up c) = render Clause c).
    { intros c C V. unfold condok in V. bools. apply (al_exc _ H); auto. }
    destruct (mem ty _); [destruct on_, using_; try discriminate U; auto|]. bools.
    destruct on_, using_; try discriminate; cbn [option_map]; rewrite Q by (auto; child); auto.
  - rewrite wf_combined in W. bools. cbn [up]. rewrite !render_NCombined, up_table. rewrite (HF n1) by (auto; child).
    destruct (is_sel n2) eqn:E; bools; [|rewrite (HF n2) by (auto; child); auto].
    assert (S : size n2 < size (NCombined op n1 n2)) by (apply children_size; child).
    rewrite (H n2 S St) by (auto; discriminate). auto.
Qed.
Lemma al_stmt : forall n, (forall x, size x < size n -> alike x) -> wf St n = true -> forall m, (m = Str -> is_sel n = false) -> render m (up n) = render m n.
Proof.
  intros n H W m M. destruct n; try discriminate W.
  - assert (m <> Str) by (intros ->; discriminate (M eq_refl)). rewrite wf_select in W. rewrite !andb_true_iff in W. decompose [and] W. clear W.
    cbn [up]. rewrite !render_NSelect.
    assert (Q : forall x, In x (children (NSelect exprs sel_all sel_distinct distinct_on from_ where_ group having order limit offset semi)) -> condok x = true -> render Clause (up x) = render Clause x).
    { intros c C V. unfold condok in V. bools. apply (al_exc _ H); auto. }
    assert (E : forall a b (c d : R str), c = d -> (match m with Str => a | _ => c end) = match m with Str => b | _ => d end) by (intros a b c d ->; destruct m; auto; congruence).
    apply E. apply bind_ext.
    { destruct sel_all; auto. destruct sel_distinct; auto. destruct distinct_on as [[|x l]|]; auto. cbn [option_map donok map] in *. bools.
      change (rmap (render Str) (up x :: map up l)) with (rmap (render Str) (map up (x :: l))). rewrite (al_ups _ H 3); auto. intros y Y; child. }
    intros d. rewrite (al_ups _ H 7) by (auto; intros y Y; child). apply bind_ext; auto. intros es. apply bind_ext.
    { destruct from_ as [f|]; auto. cbn [option_map oall] in *.
      assert (SZ : size f < size (NSelect exprs sel_all sel_distinct distinct_on (Some f) where_ group having order limit offset semi)) by (apply children_size; child).
      rewrite (H f SZ Fr); auto. discriminate. }
    intros f. apply bind_ext.
    { destruct where_ as [w|]; auto. cbn [option_map oall] in *. rewrite Q; auto. child. }
    intros w. apply bind_ext.
    { destruct group as [[[l ro] ea]|]; auto. cbn [option_map fst snd groupok] in *. bools. rewrite <- (al_ups _ H 3 l Str) by (auto; intros y Y; child).
      destruct l as [|x [|y l]]; auto. cbn [map]. match goal with X : forallb (upto 3) [x] = true |- _ => cbn [forallb] in X end. bools. rewrite (al_exc _ H); auto. child. }
    intros g. apply bind_ext.
    { destruct having as [h|]; auto. cbn [option_map oall] in *. rewrite Q; auto. child. }
    intros h. apply bind_ext.
    { destruct order as [l|]; auto. cbn [option_map oall] in *. rewrite (al_items _ H); auto. intros y Y; child. }
    intros o. apply bind_ext.
    { destruct limit as [[[|] [l|]]|]; auto. cbn [option_map limitok fst snd] in *. bools. rewrite (al_exc _ H); auto. child. }
    intros l. apply bind_ext.
    { destruct offset as [x|]; auto. cbn [option_map oall] in *. bools. rewrite (al_exc _ H); auto. child. }
    auto.
  - rewrite wf_with in W. bools. cbn [up]. rewrite !render_NWith. destruct m; auto;
    (apply bind_ext; [|intros qs; rewrite (H n) with (c := St); auto; try discriminate; apply children_size; child]).
    all: assert (Q : forall q, In q queries -> size (snd q) < size (NWith queries n)) by (intros q I; apply children_size; cbn [children]; apply in_or_app; left; apply in_map; auto).
    all: match goal with X : forallb wqok _ = true |- _ => rename X into WT end; rewrite forallb_forall in WT.
    all: clear M; revert Q WT; generalize queries at 1 3 4 5; intros l; induction l as [|q l IHl]; auto; intros Q WT; cbn [map rmap fst snd].
    all: assert (V := WT q (or_introl eq_refl)); unfold wqok in V; bools; rewrite up_with, (H _ (Q q (or_introl eq_refl)) St) by (auto; discriminate); (rewrite IHl; [auto|intros; apply Q; right; auto|intros; apply WT; right; auto]).
Qed.
Lemma render_up : forall n, alike n.
Proof.
  intros n. remember (size n) as k eqn:E. revert n E. induction k as [k IH] using (well_founded_induction lt_wf). intros n -> c m W M.
  assert (H : forall x, size x < size n -> alike x) by (intros x X; eapply IH; eauto).
  destruct c; auto using al_case, al_from, al_stmt.
Qed.
Definition stmt_shape (n : node) : bool := is_sel n || match n with NWith _ s => is_sel s | _ => false end.
Lemma rbind_assoc : forall {A B C} (a : R A) (f : A -> R B) (g : B -> R C), rbind (rbind a f) g = rbind a (fun x => rbind (f x) g).
Proof. intros A B C [a|e] f g; auto. Qed.
Lemma render_semi : forall n, stmt_shape n = true -> render Tr (with_semi true n) = (s <- render Tr (with_semi false n) ;; Ok (s ++ ";")).
Proof.
  assert (X : forall n, is_sel n = true -> render Tr (with_semi true n) = (s <- render Tr (with_semi false n) ;; Ok (s ++ ";"))).
  { intros n S. destruct n; try discriminate S. cbn [with_semi]. rewrite !render_NSelect.
    repeat (rewrite rbind_assoc; apply bind_ext; [reflexivity|intros ?]). cbn [rbind finish]. rewrite app_nil_r. auto. }
  intros n S. destruct n; try discriminate S; [apply X; auto|]. destruct n; try discriminate S.
  assert (Y := X _ S). cbn [with_semi] in *. rewrite !render_NWith, Y.
  match goal with |- rbind ?a _ = _ => destruct a; auto end. cbn [rbind]. match goal with |- rbind (rbind ?a _) _ = _ => destruct a; auto end. cbn [rbind finish].
  rewrite <- !app_assoc. auto.
Qed.
Lemma statement_shape : forall n, statement n = true -> stmt_shape n = true.
Proof.
  intros n W. unfold statement in W. destruct n; try discriminate W; auto. destruct n; auto; cbn [with_semi] in W; rewrite wf_with in W; bools; discriminate.
Qed.
Lemma semi_cases : forall n, stmt_shape n = true -> n = with_semi false n \/ n = with_semi true n.
Proof. intros n S. destruct n; try discriminate S; [destruct semi; auto|]. destruct n; try discriminate S. destruct semi; auto. Qed.
Lemma semi_semi : forall a b n, with_semi a (with_semi b n) = with_semi a n.
Proof. intros a b n. destruct n; auto. destruct n; auto. Qed.
Lemma transform_up : forall n, statement n = true -> render Tr (up n) = render Tr n.
Proof.
  intros n W. assert (S := statement_shape n W). unfold statement in W. assert (X := render_up _ _ Tr W ltac:(discriminate)).
  destruct (semi_cases n S) as [E|E]; rewrite E; auto. assert (S' : stmt_shape (with_semi false n) = true) by (rewrite E in S; clear - S; destruct n; auto; destruct n; auto).
  rewrite (render_semi n S). rewrite <- X. rewrite <- !up_semi. apply render_semi.
  rewrite <- S. clear. destruct n; try reflexivity; [cbn [up stmt_shape is_sel orb]; apply up_sel|]. rewrite up_cond. destruct (str_eqb _ _); auto.
Qed.
