(** How often the formatter calls [transform]: bounds, and an exponential family. *)
From Verif Require Import PyStr Lib AstLib Ast Render RenderEq Cost CostLib SpecCost.
Local Open Scope str_scope.
Local Open Scope list_scope.

Definition sumg (g : node -> nat) (l : list node) : nat := fold_right (fun x a => g x + a) 0 l.
Lemma sumg_app : forall g a b, sumg g (a ++ b) = sumg g a + sumg g b.
Proof. induction a as [|x a IH]; intros b; cbn [app sumg fold_right]; auto. change (fold_right _ 0 (a ++ b)) with (sumg g (a ++ b)). rewrite IH. unfold sumg. lia. Qed.
Lemma sumg_in : forall g l x, In x l -> g x <= sumg g l.
Proof. induction l as [|y l IH]; intros x []; cbn [sumg fold_right]; [subst; lia|]. apply IH in H. unfold sumg in H. lia. Qed.
Lemma acc : forall {A B} (x0 : A) (a : C A) (f : A -> C B) p k K, snd a <= p -> (forall x, fst a = Ok x \/ x = x0 -> (k + p) + snd (f x) <= K) -> k + snd (cbind a f) <= K.
Proof.
  intros A B x0 [r j] f p k K E F. cbn [fst snd] in *. destruct r as [x|e]; cbn [cbind].
  - specialize (F x (or_introl eq_refl)). destruct (f x) as [r i]. cbn [snd] in *. lia.
  - specialize (F x0 (or_intror eq_refl)). cbn [snd]. lia.
Qed.
Lemma acc0 : forall {A} (a : C A) K, 0 + snd a <= K -> snd a <= K.
Proof. auto. Qed.
Lemma acc_end : forall {A} (x : A) k K, k <= K -> k + snd (cret x) <= K.
Proof. intros. cbn. lia. Qed.
Lemma acc_lift : forall {A} (x : R A) k K, k <= K -> k + snd (lift x) <= K.
Proof. intros. cbn. lia. Qed.
Lemma acc_err : forall {A} e k K, k <= K -> k + snd (@cerr A e) <= K.
Proof. intros. cbn. lia. Qed.
Lemma acc_tick : forall {A} (a : C A) K, 1 + snd a <= K -> snd (tick a) <= K.
Proof. intros A [r k] K H. cbn in *. lia. Qed.
Lemma cmap_cost : forall {A B} (f : A -> C B) (h : A -> nat) l, (forall x, In x l -> snd (f x) <= h x) -> snd (cmap f l) <= list_sum (map h l).
Proof.
  intros A B f h l. induction l as [|x l IH]; intros H; [cbn; lia|]. change (snd (y <~ f x ;; ys <~ cmap f l ;; cret (y :: ys)) <= h x + list_sum (map h l)).
  apply acc0. specialize (IH (fun y I => H y (or_intror I))). specialize (H x (or_introl eq_refl)).
  destruct (f x) as [[y|] i]; cbn [cbind snd] in *; [|lia]. destruct (cmap f l) as [[ys|] j]; cbn [cbind snd cret] in *; lia.
Qed.
Lemma sumg_map : forall g l, list_sum (map g l) = sumg g l.
Proof. induction l as [|x l IH]; auto. cbn [map list_sum sumg fold_right]. unfold list_sum in IH. cbn. unfold sumg in IH. lia. Qed.
Lemma sumg_cons : forall g x l, sumg g (x :: l) = g x + sumg g l.
Proof. reflexivity. Qed.
Lemma sumg_nil : forall g, sumg g [] = 0.
Proof. reflexivity. Qed.
Ltac total := cbn [children olist ollist map]; repeat first [rewrite sumg_app | rewrite sumg_cons | rewrite sumg_nil]; lia.
Ltac st g K := match goal with
  | |- ?k + snd (cbind (crender ?m ?c) _) <= _ => eapply (acc [] (crender m c) _ (g c)); [apply K; [kin|discriminate|right; split; discriminate]|intros ? _]
  | |- ?k + snd (cbind (cmap (crender ?m) ?l) _) <= _ => eapply (acc [] (cmap (crender m) l) _ (sumg g l)); [rewrite <- sumg_map; apply cmap_cost; intros; apply K; [kin|discriminate|right; split; discriminate]|intros ? _]
  | |- ?k + snd (cbind (lift _) _) <= _ => eapply (acc [] _ _ 0); [cbn; lia|intros ? _]
  | |- ?k + snd (cret _) <= _ => apply acc_end
  | |- ?k + snd (lift _) <= _ => apply acc_lift
  | |- ?k + snd (cerr _) <= _ => apply acc_err
  end.
Ltac sts g K := repeat st g K.
(** an optional part [p] of the text, with the nodes [l] *)
Ltac part g K l tac := eapply (acc [] _ _ (sumg g l)); [apply acc0; tac; sts g K; try total|intros ? _].
Ltac clause g K := match goal with |- ?k + snd (cbind (crender ?m ?c) _) <= _ => eapply (acc [] (crender m c) _ (g c)); [apply K; [kin|discriminate|left; cbn [conditions olist]; repeat first [rewrite in_app_iff | progress cbn [In]]; tauto]|intros ? _] end.
(** Every node but AND/OR conditions and parentheses turns its parts into text once. *)
Definition bound (g : node -> nat) (n : node) : Prop := forall c m, In c (children n) -> m <> NL -> In c (conditions n) \/ (m <> Clause /\ m <> When) -> snd (crender m c) <= g c.
Lemma once : forall g n m, match n with NBoolC _ _ _ | NParen _ => False | _ => True end -> bound g n -> snd (crender m n) <= 1 + sumg g (children n).
Proof.
  intros g n m NB K. unfold bound in K. destruct n; try contradiction NB; clear NB.
  - rewrite crender_NSelect. apply acc_tick. cbv zeta.
    assert (B1 : snd (if sel_all then cret " ALL" else if sel_distinct then match distinct_on with Some (x :: l) => l <~ cmap (crender Str) (x :: l) ;; cret (" DISTINCT ON (" ++ join ", " l ++ ")") | _ => cret " DISTINCT" end else cret "") <= sumg g (ollist distinct_on)).
    { apply acc0. destruct sel_all; [|destruct sel_distinct; [destruct distinct_on as [[|]|]|]]; sts g K; total. }
    assert (B2 : snd (cmap (crender Tr) exprs) <= sumg g exprs) by (rewrite <- sumg_map; apply cmap_cost; intros; apply K; [kin|discriminate|right; split; discriminate]).
    assert (B3 : snd (match from_ with None => cret "" | Some f => t <~ crender Top f ;; cret (nl ++ "FROM " ++ t) end) <= sumg g (olist from_)) by (apply acc0; destruct from_; sts g K; total).
    assert (B4 : snd (match where_ with Some x => t <~ crender Clause x ;; cret (nl ++ "WHERE" ++ t) | None => cret "" end) <= sumg g (olist where_)) by (apply acc0; destruct where_; [clause g K|]; sts g K; total).
    assert (B5 : snd (match group with
            | Some (args, rollup, each) =>
              t <~ (match args with [] => cerr IndexError | [a] => t <~ crender Tr a ;; cret (" " ++ t)
                    | _ => l <~ cmap (crender Str) args ;; cret (indent (nl ++ join ("," ++ nl) l)) end) ;;
              cret (nl ++ "GROUP " ++ (if each then "EACH " else "") ++ "BY" ++ (if rollup then " ROLLUP" else "") ++ t)
            | None => cret "" end) <= sumg g (match group with Some (a, _, _) => a | None => [] end)).
    { apply acc0. destruct group as [[[args ro] ea]|]; [|sts g K; total]. eapply (acc [] _ _ (sumg g args)); [|intros ? _; sts g K; total]. apply acc0. destruct args as [|x [|y r]]; sts g K; total. }
    assert (B6 : snd (match having with Some x => t <~ crender Clause x ;; cret (nl ++ "HAVING" ++ t) | None => cret "" end) <= sumg g (olist having)) by (apply acc0; destruct having; [clause g K|]; sts g K; total).
    assert (B7 : snd (match order with Some l => l <~ cmap (crender Str) l ;; t <~ lift (order_text true l) ;; cret (nl ++ "ORDER BY" ++ t) | None => cret "" end) <= sumg g (ollist order)) by (apply acc0; destruct order; sts g K; total).
    assert (B8 : snd (match limit with Some (true, _) => cret (nl ++ "LIMIT ALL") | Some (false, Some x) => t <~ crender Str x ;; cret (nl ++ "LIMIT " ++ t) | Some (false, None) => cret (nl ++ "LIMIT None") | None => cret "" end)
       <= sumg g (match limit with Some (_, Some x) => [x] | _ => [] end)) by (apply acc0; destruct limit as [[[] [x|]]|]; sts g K; total).
    assert (B9 : snd (match offset with Some x => t <~ crender Str x ;; cret (nl ++ "OFFSET " ++ t) | None => cret "" end) <= sumg g (olist offset)) by (apply acc0; destruct offset; sts g K; total).
    destruct m; [|apply acc_lift; lia|..].
    all: eapply (acc [] _ _ _ _ _ B1); intros ? _; eapply (acc [] _ _ _ _ _ B2); intros ? _; eapply (acc [] _ _ _ _ _ B3); intros ? _; eapply (acc [] _ _ _ _ _ B4); intros ? _; eapply (acc [] _ _ _ _ _ B5); intros ? _.
    all: eapply (acc [] _ _ _ _ _ B6); intros ? _; eapply (acc [] _ _ _ _ _ B7); intros ? _; eapply (acc [] _ _ _ _ _ B8); intros ? _; eapply (acc [] _ _ _ _ _ B9); intros ? _; apply acc_end; total.
  - rewrite crender_NWith. apply acc_tick.
    assert (B1 : snd (cmap (fun q : str * node => if is_with (snd q) then cerr TypeError else t <~ crender Sub (snd q) ;; cret (fst q ++ " AS (" ++ nl ++ t ++ nl ++ ")")) queries) <= sumg g (map snd queries)).
    { rewrite <- sumg_map, map_map. apply cmap_cost. intros q I. apply acc0. destruct (is_with (snd q)); sts g K; lia. }
    destruct m; [|apply acc_err; lia|..]; (eapply (acc [] _ _ _ _ _ B1); intros ? _; sts g K; total).
  - rewrite crender_NOrderItem. apply acc_tick. eapply (acc [] _ _ (g n)); [|intros ? _; sts g K; total]. apply acc0. sts g K; total.
  - rewrite crender_NFun. apply acc_tick. eapply (acc [] _ _ (sumg g args)); [|intros ? _; sts g K; total]. apply acc0. sts g K; total.
  - rewrite crender_NCast. apply acc_tick. eapply (acc [] _ _ (g n)); [|intros ? _; sts g K; total]. apply acc0. sts g K; total.
  - rewrite crender_NCount. apply acc_tick. eapply (acc [] _ _ (sumg g args)); [|intros ? _; sts g K; total]. apply acc0. sts g K; total.
  - rewrite crender_NArrayAgg. apply acc_tick. eapply (acc [] _ _ (g n + sumg g (ollist order))); [|intros ? _; sts g K; total]. apply acc0. st g K.
    eapply (acc [] _ _ (sumg g (ollist order))); [apply acc0; destruct order; sts g K; total|intros ? _]. sts g K; total.
  - rewrite crender_NFiltered. apply acc_tick. eapply (acc [] _ _ (g n1 + g n2)); [|intros ? _; sts g K; total]. apply acc0. sts g K; total.
  - rewrite crender_NAnalytics. apply acc_tick. eapply (acc [] _ _ (g n + sumg g (ollist partition) + sumg g (ollist order))); [|intros ? _; sts g K; total]. apply acc0. cbv zeta. st g K.
    eapply (acc [] _ _ (sumg g (ollist partition))); [apply acc0; destruct partition as [[|]|]; sts g K; total|intros ? _].
    eapply (acc [] _ _ (sumg g (ollist order))); [apply acc0; destruct order; sts g K; total|intros ? _]. sts g K; total.
  - rewrite crender_NColumn. apply acc_tick. eapply (acc [] _ _ 0); [cbn; lia|intros ? _; sts g K; total].
  - rewrite crender_NChained. apply acc_tick. eapply (acc [] _ _ (g n1 + g n2)); [|intros ? _; sts g K; total]. apply acc0. sts g K; total.
  - rewrite crender_NType. apply acc_tick. eapply (acc [] _ _ 0); [cbn; lia|intros ? _; sts g K; total].
  - rewrite crender_NDatePart. apply acc_tick. eapply (acc [] _ _ (g n)); [|intros ? _; sts g K; total]. apply acc0. sts g K; total.
  - rewrite crender_NString. apply acc_tick. eapply (acc [] _ _ 0); [cbn; lia|intros ? _; sts g K; total].
  - rewrite crender_NInt. apply acc_tick. eapply (acc [] _ _ 0); [cbn; lia|intros ? _; sts g K; total].
  - rewrite crender_NFloat. apply acc_tick. eapply (acc [] _ _ 0); [cbn; lia|intros ? _; sts g K; total].
  - rewrite crender_NNull. apply acc_tick. eapply (acc [] _ _ 0); [cbn; lia|intros ? _; sts g K; total].
  - rewrite crender_NBool. apply acc_tick. eapply (acc [] _ _ 0); [cbn; lia|intros ? _; sts g K; total].
  - rewrite crender_NArray. apply acc_tick. eapply (acc [] _ _ (sumg g args)); [|intros ? _; sts g K; total]. apply acc0. sts g K; total.
  - rewrite crender_NAlias. apply acc_tick.
    assert (B1 : forall m', m' <> NL -> m' <> Clause -> m' <> When -> snd (match alias with inl s => cret s | inr x => crender m' x end) <= sumg g (match alias with inr x => [x] | inl _ => [] end)).
    { intros m' N1 N2 N3. destruct alias as [s|x]; [cbn; lia|]. rewrite sumg_cons, sumg_nil. enough (snd (crender m' x) <= g x) by lia. apply K; [kin|auto|auto]. }
    assert (BT := B1 Tr ltac:(discriminate) ltac:(discriminate) ltac:(discriminate)). assert (BS := B1 Str ltac:(discriminate) ltac:(discriminate) ltac:(discriminate)).
    destruct m; try (apply acc_err; lia); st g K; (first [eapply (acc [] _ _ _ _ _ BT) | eapply (acc [] _ _ _ _ _ BS)]; intros ? _; sts g K; total).
  - rewrite crender_NIndex. apply acc_tick. eapply (acc [] _ _ (g n + sumg g indices)); [|intros ? _; sts g K; total]. apply acc0. sts g K; total.
  - rewrite crender_NArith. apply acc_tick. eapply (acc [] _ _ (g n1 + g n2)); [|intros ? _; sts g K; total]. apply acc0. sts g K; total.
  - rewrite crender_NBitwise. apply acc_tick. eapply (acc [] _ _ (g n1 + g n2)); [|intros ? _; sts g K; total]. apply acc0. sts g K; total.
  - rewrite crender_NTable. apply acc_tick. eapply (acc [] _ _ (g n)); [|intros ? _; sts g K; total]. apply acc0. sts g K; total.
  - rewrite crender_NUnnest. apply acc_tick. eapply (acc [] _ _ (g n)); [|intros ? _; sts g K; total]. apply acc0. sts g K; total.
  - rewrite crender_NJoin. apply acc_tick. eapply (acc [] _ _ (g n1 + g n2 + sumg g (olist on_) + sumg g (olist using_))); [|intros ? _; sts g K; total]. apply acc0. sts g K.
    eapply (acc [] _ _ (sumg g (olist on_) + sumg g (olist using_))); [apply acc0; destruct on_; [clause g K; sts g K; total|]; destruct using_; [clause g K|]; sts g K; total|intros ? _]. sts g K; total.
  - rewrite crender_NCombined. apply acc_tick. eapply (acc [] _ _ (g n1 + g n2)); [|intros ? _; sts g K; total]. apply acc0. sts g K; total.
  - rewrite crender_NCond. apply acc_tick. eapply (acc [] _ _ (g n1 + g n2)); [|intros ? _; sts g K; total]. apply acc0. sts g K; total.
  - rewrite crender_NNeg. apply acc_tick. eapply (acc [] _ _ (g n)); [|intros ? _; sts g K; total]. apply acc0. sts g K; total.
  - rewrite crender_NExcept. apply acc_tick. eapply (acc [] _ _ (g n + sumg g args)); [|intros ? _; sts g K; total]. apply acc0. sts g K; total.
  - rewrite crender_NReplace. apply acc_tick. eapply (acc [] _ _ (g n + sumg g args)); [|intros ? _; sts g K; total]. apply acc0. sts g K; total.
  - rewrite crender_NCase. apply acc_tick. eapply (acc [] _ _ (sumg g (children (NCase e whens els)))); [|intros ? _; sts g K; total]. apply acc0.
    eapply (acc [] _ _ (sumg g (olist e))); [apply acc0; destruct e; sts g K; total|intros ? _].
    assert (B1 : snd (cmap (fun wt : node * node => w <~ crender When (fst wt) ;; t <~ crender Str (snd wt) ;; cret ("WHEN" ++ w ++ "THEN " ++ t)) whens) <= sumg g (map fst whens) + sumg g (map snd whens)).
    { assert (X : list_sum (map (fun wt : node * node => g (fst wt) + g (snd wt)) whens) = sumg g (map fst whens) + sumg g (map snd whens)).
      { clear. induction whens as [|w l IH]; auto. cbn [map]. rewrite !sumg_cons. cbn [list_sum fold_right]. unfold list_sum in IH. cbn. lia. }
      rewrite <- X. apply cmap_cost. intros wt I. apply acc0. pose proof (in_map fst _ _ I) as I1. pose proof (in_map snd _ _ I) as I2.
      eapply (acc [] _ _ (g (fst wt))); [apply K; [cbn [children]; rewrite !in_app_iff; tauto|discriminate|left; exact I1]|intros ? _].
      eapply (acc [] _ _ (g (snd wt))); [apply K; [cbn [children]; rewrite !in_app_iff; tauto|discriminate|right; split; discriminate]|intros ? _]. sts g K; lia. }
    eapply (acc [] _ _ _ _ _ B1); intros ? _.
    eapply (acc [] _ _ (sumg g (olist els))); [apply acc0; destruct els; sts g K; total|intros ? _]. sts g K; total.
Qed.

(** * The bound for every tree *)
Lemma sizes_sum : forall l, (fix sizes (l : list node) : nat := match l with [] => 0 | x :: r => size x + sizes r end) l = sumg size l.
Proof. induction l as [|x l IH]; [reflexivity|]. rewrite IH. reflexivity. Qed.
Lemma size_sum : forall n, size n = 1 + sumg size (children n).
Proof.
  assert (Q : forall l : list (str * node), (fix go (l : list (str * node)) := match l with [] => 0 | (_, x) :: r => size x + go r end) l = sumg size (map snd l)).
  { induction l as [|[a x] l IH]; [reflexivity|]. rewrite IH. reflexivity. }
  assert (W : forall l : list (node * node), (fix go (l : list (node * node)) := match l with [] => 0 | (a, b) :: r => size a + size b + go r end) l = sumg size (map fst l) + sumg size (map snd l)).
  { induction l as [|[a x] l IH]; [reflexivity|]. rewrite IH. cbn. unfold sumg. lia. }
  assert (O : forall o : option node, match o with Some x => size x | None => 0 end = sumg size (olist o)) by (intros [x|]; [cbn; lia|reflexivity]).
  assert (OL : forall o : option (list node), match o with Some x => (fix sizes (l : list node) : nat := match l with [] => 0 | x :: r => size x + sizes r end) x | None => 0 end = sumg size (ollist o)) by (intros [x|]; [apply sizes_sum|reflexivity]).
  intros n. destruct n; cbn [size children]; repeat rewrite O; repeat rewrite OL; repeat rewrite sizes_sum; repeat rewrite Q; repeat rewrite W; repeat first [rewrite sumg_app | rewrite sumg_cons | rewrite sumg_nil]; try lia.
  - destruct group as [[[args ro] ea]|]; destruct limit as [[? [x|]]|]; try rewrite (sizes_sum args); repeat first [rewrite sumg_app | rewrite sumg_cons | rewrite sumg_nil]; lia.
  - match goal with a : (_ + _)%type |- _ => destruct a end; repeat first [rewrite sumg_cons | rewrite sumg_nil]; lia.
Qed.
Lemma depth_le : forall k n, size n <= k -> depth k n = nesting n.
Proof.
  assert (D : forall n k, size n <= k -> depth k n = depth (size n) n).
  { intros n. induction n as [n IH] using node_inside_ind. intros k L. destruct k as [|k]; [rewrite size_sum in L; lia|].
    destruct (size n) as [|s] eqn:E; [rewrite size_sum in E; lia|]. cbn [depth]. f_equal. f_equal. apply map_ext_in. intros c I.
    pose proof (children_size n c I). rewrite (IH c (inside_child _ _ I) k ltac:(lia)). symmetry. apply IH; [apply inside_child; exact I|lia]. }
  intros. unfold nesting. auto.
Qed.
Lemma maxof_in : forall l x, In x l -> x <= maxof l.
Proof. induction l as [|y l IH]; intros x []; cbn [maxof fold_right]; [subst; lia|]. apply IH in H. unfold maxof in H. lia. Qed.
Lemma nesting_child : forall n c, In c (children n) -> match n with NBoolC _ _ _ | NParen _ => 1 | _ => 0 end + nesting c <= nesting n.
Proof.
  intros n c I. unfold nesting at 2. destruct (size n) as [|k] eqn:E; [rewrite size_sum in E; lia|]. cbn [depth].
  pose proof (children_size n c I). rewrite <- (depth_le k c) by lia. pose proof (maxof_in _ _ (in_map (depth k) _ _ I)). lia.
Qed.
Lemma sumg_le : forall g h l, (forall x, In x l -> g x <= h x) -> sumg g l <= sumg h l.
Proof. induction l as [|x l IH]; intros H; [reflexivity|]. rewrite !sumg_cons. specialize (IH (fun y I => H y (or_intror I))). specialize (H x (or_introl eq_refl)). lia. Qed.
Lemma sumg_mul : forall g k l, sumg (fun x => g x * k) l = sumg g l * k.
Proof. induction l as [|x l IH]; auto. rewrite !sumg_cons, IH. lia. Qed.
(** AND/OR conditions turn their operands into text at most twice *)
Lemma twice_bool : forall g ty l r m, (forall c m, In c [l; r] -> snd (crender m c) <= g c) -> snd (crender m (NBoolC ty l r)) <= 1 + 2 * (g l + g r).
Proof.
  intros g ty l r m K. rewrite crender_NBoolC. apply acc_tick. assert (KL := fun m => K l m (or_introl eq_refl)). assert (KR := fun m => K r m (or_intror (or_introl eq_refl))).
  destruct m; try (apply acc_err; lia).
  all: eapply (acc [] _ _ (g l)); [apply KL|intros ? _]; eapply (acc [] _ _ (g r)); [apply KR|intros ? _]; cbv zeta.
  all: eapply (acc [] _ _ (g l + g r)); [apply acc0|intros ? _; apply acc_end; lia]; match goal with |- context[if ?b then _ else _] => destruct b end; [apply acc_end; lia|].
  all: eapply (acc [] _ _ (g l)); [apply KL|intros ? _]; eapply (acc [] _ _ (g r)); [apply KR|intros ? _]; apply acc_end; lia.
Qed.
Lemma full_cost : forall g args, (forall c m, In c args -> m <> NL -> m <> Clause -> m <> When -> snd (crender m c) <= g c) ->
  snd (l <~ cmap (fun a => t <~ crender Sub a ;; cret (if is_select a then nl ++ t ++ nl else t)) args ;; cret ("(" ++ join ", " l ++ ")")) <= sumg g args.
Proof.
  intros g args K. apply acc0. eapply (acc [] _ _ (sumg g args)); [|intros ? _; apply acc_end; lia]. rewrite <- sumg_map. apply cmap_cost. intros a I. apply acc0.
  eapply (acc [] _ _ (g a)); [apply K; [exact I|discriminate..]|intros ? _; apply acc_end; lia].
Qed.
Lemma twice_paren : forall g args m, (forall c m, In c args -> snd (crender m c) <= g c) -> snd (crender m (NParen args)) <= 1 + 2 * sumg g args.
Proof.
  intros g args m K. rewrite crender_NParen. apply acc_tick. cbv zeta.
  pose proof (full_cost g args (fun c m I _ _ _ => K c m I)) as F.
  assert (A : forall a r, args = a :: r -> g a <= sumg g args) by (intros a r ->; rewrite sumg_cons; lia).
  destruct m; try (eapply Nat.le_trans; [apply Nat.add_le_mono_l; exact F|lia]).
  - destruct args as [|a r]; [apply acc_err; lia|]. eapply (acc [] _ _ (g a)); [apply K; left; reflexivity|intros ? _]. apply acc_end. specialize (A a r eq_refl). lia.
  - eapply (acc [] _ _ _ _ _ F). intros ? _. destruct (has_nl x); [|apply acc_end; lia]. destruct args as [|a r]; [apply acc_err; lia|].
    eapply (acc [] _ _ (g a)); [apply K; left; reflexivity|intros ? _]. apply acc_end. specialize (A a r eq_refl). lia.
  - eapply (acc [] _ _ _ _ _ F). intros ? _. destruct (has_nl x); [|apply acc_end; lia]. destruct args as [|a r]; [apply acc_err; lia|].
    eapply (acc [] _ _ (g a)); [apply K; left; reflexivity|intros ? _]. apply acc_end. specialize (A a r eq_refl). lia.
  - destruct args as [|a r]; [apply acc_err; lia|]. eapply (acc [] _ _ (g a)); [apply K; left; reflexivity|intros ? _]. apply acc_end. specialize (A a r eq_refl). lia.
  - destruct args as [|a r]; [apply acc_err; lia|]. eapply (acc [] _ _ (g a)); [apply K; left; reflexivity|intros ? _]. apply acc_end. specialize (A a r eq_refl). lia.
  - destruct args as [|a r]; [apply acc_err; lia|]. specialize (K a (Side 1) (or_introl eq_refl)). specialize (A a r eq_refl). lia.
  - destruct args as [|a r]; [apply acc_err; lia|]. specialize (K a (Side (S k)) (or_introl eq_refl)). specialize (A a r eq_refl). lia.
Qed.
Lemma calls_bound : forall n m, snd (crender m n) <= size n * 2 ^ nesting n.
Proof.
  intros n. induction n as [n IH] using node_inside_ind. intros m. rewrite (size_sum n).
  set (g := fun c => size c * 2 ^ nesting c).
  assert (P : 1 <= 2 ^ nesting n) by (clear; induction (nesting n); cbn; lia).
  assert (K : forall c m, In c (children n) -> snd (crender m c) <= g c) by (intros; apply IH, inside_child; assumption).
  destruct (match n with NBoolC _ _ _ | NParen _ => true | _ => false end) eqn:B.
  - assert (D : sumg g (children n) * 2 <= sumg size (children n) * 2 ^ nesting n).
    { rewrite <- !sumg_mul. apply sumg_le. intros c I. unfold g. pose proof (nesting_child n c I) as N. destruct n; try discriminate B.
      all: rewrite <- Nat.mul_assoc; apply Nat.mul_le_mono_l; rewrite Nat.mul_comm; change (2 * 2 ^ nesting c) with (2 ^ S (nesting c)); apply Nat.pow_le_mono_r; lia. }
    destruct n; try discriminate B.
    + cbn [children] in *. pose proof (twice_paren g args m K). lia.
    + cbn [children] in *. pose proof (twice_bool g ty n1 n2 m K) as T. repeat rewrite sumg_cons in D; repeat rewrite sumg_nil in D; repeat rewrite sumg_cons; repeat rewrite sumg_nil. lia.
  - assert (D : sumg g (children n) <= sumg size (children n) * 2 ^ nesting n).
    { rewrite <- sumg_mul. apply sumg_le. intros c I. unfold g. pose proof (nesting_child n c I) as N. apply Nat.mul_le_mono_l, Nat.pow_le_mono_r; lia. }
    assert (T : snd (crender m n) <= 1 + sumg g (children n)) by (apply once; [destruct n; try discriminate B; exact I|intros c m' I _ _; apply K; exact I]). lia.
Qed.
(** * Short conditions: every node once *)
Lemma brief_child : forall n c, brief n -> In c (children n) -> brief c.
Proof. intros n c H I x O. apply H. eapply occurs_in; eassumption. Qed.
Lemma calls_brief : forall n, brief n -> forall m, m <> NL ->
  (match n with NParen _ => (m <> Clause /\ m <> When) \/ (forall t, transform n = Ok t -> ~ In 10%N t) | _ => True end) -> snd (crender m n) <= size n.
Proof.
  intros n. induction n as [n IH] using node_inside_ind. intros H m M CP. rewrite (size_sum n).
  assert (K : bound size n).
  { intros c m' I M' Q. apply IH; [apply inside_child; exact I|eapply brief_child; eassumption|exact M'|].
    destruct c; auto. destruct Q as [Q|Q]; [right|left; exact Q]. intros t E. apply (proj2 (H n (occurs_here n)) _ _ Q E). }
  destruct (match n with NBoolC _ _ _ | NParen _ => true | _ => false end) eqn:B; [|apply once; [destruct n; try discriminate B; exact I|exact K]].
  destruct n; try discriminate B.
  - rewrite crender_NParen. apply acc_tick. cbv zeta. cbn [children].
    assert (KA : forall c m, In c args -> m <> NL -> m <> Clause -> m <> When -> snd (crender m c) <= size c) by (intros c m' I N1 N2 N3; apply K; auto).
    pose proof (full_cost size args KA) as F.
    assert (A : forall a r m, args = a :: r -> m <> NL -> m <> Clause -> m <> When -> snd (crender m a) <= sumg size args).
    { intros a r m' -> N1 N2 N3. rewrite sumg_cons. specialize (KA a m' (or_introl eq_refl) N1 N2 N3). lia. }
    assert (O : m = Clause \/ m = When -> forall x, fst (l <~ cmap (fun a => t <~ crender Sub a ;; cret (if is_select a then nl ++ t ++ nl else t)) args ;; cret ("(" ++ join ", " l ++ ")")) = Ok x \/ x = [] -> has_nl x = false).
    { intros MC x [X| ->]; [|reflexivity]. destruct CP as [CP|CP]; [destruct CP; destruct MC; contradiction|]. destruct (has_nl x) eqn:HN; auto. exfalso.
      apply (CP x). { unfold transform. rewrite <- crender_text, crender_NParen. cbv zeta. etransitivity; [|exact X]. unfold tick. destruct (cbind _ _); reflexivity. }
      unfold has_nl in HN. apply has_In in HN. exact HN. }
    destruct m; try contradiction; try (eapply Nat.le_trans; [apply Nat.add_le_mono_l; exact F|lia]).
    + eapply (acc [] _ _ _ _ _ F). intros x X. rewrite (O (or_introl eq_refl) x X). apply acc_end. lia.
    + eapply (acc [] _ _ _ _ _ F). intros x X. rewrite (O (or_intror eq_refl) x X). apply acc_end. lia.
    + destruct args as [|a r]; [apply acc_err; lia|]. eapply (acc [] _ _ _ _ _ (A a r Sub eq_refl ltac:(discriminate) ltac:(discriminate) ltac:(discriminate))); intros ? _. apply acc_end. lia.
    + destruct args as [|a r]; [apply acc_err; lia|]. eapply (acc [] _ _ _ _ _ (A a r Sub eq_refl ltac:(discriminate) ltac:(discriminate) ltac:(discriminate))); intros ? _. apply acc_end. lia.
    + destruct args as [|a r]; [apply acc_err; lia|]. pose proof (A a r (Side 1) eq_refl ltac:(discriminate) ltac:(discriminate) ltac:(discriminate)). lia.
    + destruct args as [|a r]; [apply acc_err; lia|]. pose proof (A a r (Side (S k)) eq_refl ltac:(discriminate) ltac:(discriminate) ltac:(discriminate)). lia.
  - rewrite crender_NBoolC. apply acc_tick.
    assert (KL : snd (crender Tr n1) <= size n1) by (apply K; [left; reflexivity|discriminate|right; split; discriminate]).
    assert (KR : snd (crender Tr n2) <= size n2) by (apply K; [right; left; reflexivity|discriminate|right; split; discriminate]).
    cbn [children]. rewrite !sumg_cons, sumg_nil. pose proof (proj1 (H _ (occurs_here _)) ty n1 n2) as L. unfold transform in L. rewrite <- !crender_text in L.
    destruct (crender Tr n1) as [[tl|e1] k1] eqn:E1; cbn [fst snd] in *; [|destruct m; cbn [cbind snd cerr]; lia].
    destruct (crender Tr n2) as [[tr|e2] k2] eqn:E2; cbn [fst snd] in *; [|destruct m; cbn [cbind snd cerr]; lia].
    specialize (L tl tr eq_refl eq_refl eq_refl).
    assert (LL : (length (tl ++ " " ++ upper ty ++ " " ++ tr) <? DEFAULT_LINE_LENGTH) = true).
    { apply Nat.ltb_lt. replace (length (tl ++ " " ++ upper ty ++ " " ++ tr)) with (length (tl ++ " " ++ ty ++ " " ++ tr)); [exact L|]. rewrite !app_length. unfold upper. rewrite map_length. reflexivity. }
    destruct m; try contradiction; cbn [cbind]; cbv zeta; rewrite ?LL; cbn [andb cbind snd cret cerr]; lia.
Qed.
