(** Lemmas about validation. *)
From Coq Require Import Permutation.
From Verif Require Import PyStr Ast AstLib Render Validate Api Lib SpecVal.
Local Open Scope str_scope.
Local Open Scope list_scope.

(** ** Generic facts *)
Lemma rconcat_Ok : forall {A} (f : A -> R (list str)) l es, rconcat f l = Ok es ->
  exists ls, Forall2 (fun x y => f x = Ok y) l ls /\ es = concat ls.
Proof. intros. unfold rconcat in H. inv_bind H. injection H as <-. apply rmap_Ok in Hb. eauto. Qed.
Lemma rconcat_nil : forall {A} (f : A -> R (list str)) l,
  rconcat f l = Ok [] <-> Forall (fun x => f x = Ok []) l.
Proof.
  intros. unfold rconcat. split.
  - intros H. inv_bind H. apply rmap_Ok in Hb. injection H as H. induction Hb; constructor.
    + cbn in H. apply app_eq_nil in H as [-> _]. auto.
    + cbn in H. apply app_eq_nil in H as [_ H]. auto.
  - intros H. assert (rmap f l = Ok (map (fun _ => []) l)) as ->.
    { apply rmap_Ok. induction H; constructor; auto. }
    cbn. f_equal. clear. induction l; auto.
Qed.
Lemma rconcat_In : forall {A} (f : A -> R (list str)) l es x ex m,
  rconcat f l = Ok es -> In x l -> f x = Ok ex -> In m ex -> In m es.
Proof.
  intros. apply rconcat_Ok in H as [ls [H ->]]. induction H; [contradiction|].
  cbn. apply in_or_app. destruct H0 as [->|H0]; [left; congruence | right; auto].
Qed.
Lemma rconcat_In_inv : forall {A} (f : A -> R (list str)) l es m,
  rconcat f l = Ok es -> In m es -> exists x ex, In x l /\ f x = Ok ex /\ In m ex.
Proof.
  intros. apply rconcat_Ok in H as [ls [H ->]]. induction H; [contradiction|].
  cbn in H0. apply in_app_or in H0 as [H0|H0].
  - exists x, y. cbn; auto.
  - apply IHForall2 in H0 as (x' & ex & ? & ? & ?). exists x', ex. cbn; auto.
Qed.
Lemma rconcat_each : forall {A} (f : A -> R (list str)) l es x,
  rconcat f l = Ok es -> In x l -> exists ex, f x = Ok ex.
Proof.
  intros. apply rconcat_Ok in H as [ls [H ->]]. induction H; [contradiction|].
  destruct H0 as [->|H0]; eauto.
Qed.

Lemma wraps_unparen : forall e x, wraps e x -> unparen e = unparen x.
Proof. intros e x H. induction H; cbn; auto. Qed.
Lemma unparen_wraps : forall e x, unparen e = Ok x -> wraps e x.
Proof.
  fix IH 1. intros e x H. destruct e; cbn in H; try (injection H as <-; constructor).
  destruct args; [discriminate|]. constructor. apply IH. exact H.
Qed.
Lemma unparen_not_paren : forall e x, unparen e = Ok x -> is_paren x = false.
Proof.
  fix IH 1. intros e x H. destruct e; cbn in H; try (injection H as <-; reflexivity).
  destruct args; [discriminate|]. eapply IH. exact H.
Qed.

(** ** C19 *)
Lemma count_errors_int : forall a b e z, wraps e (NInt z) ->
  count_errors a b e = Ok (if (z <? 0)%Z then [b] else []).
Proof. intros. unfold count_errors. rewrite (wraps_unparen _ _ H). reflexivity. Qed.
Lemma count_errors_nil : forall a b e, count_errors a b e = Ok [] <->
  exists z, wraps e (NInt z) /\ (0 <= z)%Z.
Proof.
  intros. split.
  - unfold count_errors. intros H. inv_bind H. inv_bind H. apply unparen_wraps in Hb.
    destruct a0; try discriminate. exists z. split; auto.
    destruct (z <? 0)%Z eqn:E; [discriminate|]. apply Z.ltb_ge in E. auto.
  - intros [z [H1 H2]]. rewrite (count_errors_int _ _ _ _ H1).
    destruct (Z.ltb_spec z 0); [lia|auto].
Qed.
Lemma count_errors_inv : forall a b e es, count_errors a b e = Ok es ->
  (exists z, wraps e (NInt z) /\ es = if (z <? 0)%Z then [b] else [])
  \/ (es = [a] /\ forall z, ~ wraps e (NInt z)).
Proof.
  unfold count_errors. intros. inv_bind H. inv_bind H.
  assert (K : forall z, wraps e (NInt z) -> a0 = NInt z).
  { intros z W. apply wraps_unparen in W. rewrite Hb in W. cbn in W. congruence. }
  apply unparen_wraps in Hb.
  destruct a0; try (injection H as <-; right; split; [reflexivity|];
    intros z W; apply K in W; discriminate).
  injection H as <-. left. eauto.
Qed.

Section Sel.
  Variable ord : fields -> fields.
  Variables (exprs : list node) (all dis : bool) (don : option (list node)) (semi : bool).

  Lemma limit_split : forall from_ where_ group having order e es,
    validate_top ord (NSelect exprs all dis don from_ where_ group having order None None semi) = Ok es ->
    validate_top ord (NSelect exprs all dis don from_ where_ group having order (Some (false, Some e)) None semi)
    = (l <- count_errors LIMIT_VAR LIMIT_NEG e ;; Ok (es ++ l)).
  Proof.
    intros * H. cbn in *.
    repeat (inv_bind H; rewrite Hb; cbn; clear Hb).
    injection H as <-. destruct (count_errors LIMIT_VAR LIMIT_NEG e); cbn; auto.
    rewrite !app_nil_r, <- !app_assoc. auto.
  Qed.
  Lemma offset_split : forall from_ where_ group having order limit e es,
    validate_top ord (NSelect exprs all dis don from_ where_ group having order limit None semi) = Ok es ->
    validate_top ord (NSelect exprs all dis don from_ where_ group having order limit (Some e) semi)
    = (l <- count_errors OFFSET_VAR OFFSET_NEG e ;; Ok (es ++ l)).
  Proof.
    intros * H. cbn in *.
    repeat (inv_bind H; rewrite Hb; cbn; clear Hb).
    injection H as <-. destruct (count_errors OFFSET_VAR OFFSET_NEG e); cbn; auto.
    rewrite !app_nil_r, <- !app_assoc. auto.
  Qed.
End Sel.

Lemma app_nil_inv : forall {A} (a b : list A), a ++ b = [] -> a = [] /\ b = [].
Proof. intros. apply app_eq_nil. auto. Qed.
Ltac nils H :=
  repeat (apply app_nil_inv in H as [? H]); subst.

(** The parts of a successful validation of a SELECT *)
Lemma select_parts : forall ord known exprs all dis don from_ where_ group having order limit offset semi es,
  validate ord known (NSelect exprs all dis don from_ where_ group having order limit offset semi) = Ok es ->
  exists K e1 e2 e3 e4 e5 e6 e7 e8,
    visible known from_ = Ok K
    /\ rconcat (validate ord K) exprs = Ok e1
    /\ ropt (validate ord []) from_ = Ok e2
    /\ ropt (fun x => a <- validate ord K x ;; b <- bool_errors ord "WHERE" x K ;; Ok (a ++ b)) where_ = Ok e3
    /\ ropt (fun g => rconcat (group_arg_errors K exprs) (fst (fst g))) group = Ok e4
    /\ ropt (fun x => a <- validate ord K x ;; b <- bool_errors ord "HAVING" x K ;; Ok (a ++ b)) having = Ok e5
    /\ ropt (rconcat (fun i => match i with
                  | NOrderItem e _ _ =>
                    order_item_errors (Some (length exprs)) e (validate ord K e)
                  | _ => Err TypeError
                  end)) order = Ok e6
    /\ ropt (fun l => match snd l with
                         | Some x => count_errors LIMIT_VAR LIMIT_NEG x
                         | None => Err AttributeError
                         end) limit = Ok e7
    /\ ropt (count_errors OFFSET_VAR OFFSET_NEG) offset = Ok e8
    /\ es = e1 ++ e2 ++ e3 ++ e4 ++ e5 ++ e6 ++ e7 ++ e8.
Proof.
  intros * H. cbn in H. do 9 inv_bind H. injection H as <-.
  exists a, a0, a1, a2, a3, a4, a5, a6, a7. repeat split; auto.
Qed.
Lemma select_build : forall ord known exprs all dis don from_ where_ group having order limit offset semi
    K e1 e2 e3 e4 e5 e6 e7 e8,
    visible known from_ = Ok K
    -> rconcat (validate ord K) exprs = Ok e1
    -> ropt (validate ord []) from_ = Ok e2
    -> ropt (fun x => a <- validate ord K x ;; b <- bool_errors ord "WHERE" x K ;; Ok (a ++ b)) where_ = Ok e3
    -> ropt (fun g => rconcat (group_arg_errors K exprs) (fst (fst g))) group = Ok e4
    -> ropt (fun x => a <- validate ord K x ;; b <- bool_errors ord "HAVING" x K ;; Ok (a ++ b)) having = Ok e5
    -> ropt (rconcat (fun i => match i with
                  | NOrderItem e _ _ =>
                    order_item_errors (Some (length exprs)) e (validate ord K e)
                  | _ => Err TypeError
                  end)) order = Ok e6
    -> ropt (fun l => match snd l with
                         | Some x => count_errors LIMIT_VAR LIMIT_NEG x
                         | None => Err AttributeError
                         end) limit = Ok e7
    -> ropt (count_errors OFFSET_VAR OFFSET_NEG) offset = Ok e8
    -> validate ord known (NSelect exprs all dis don from_ where_ group having order limit offset semi)
       = Ok (e1 ++ e2 ++ e3 ++ e4 ++ e5 ++ e6 ++ e7 ++ e8).
Proof.
  intros * H0 H1 H2 H3 H4 H5 H6 H7 H8. cbn.
  rewrite H0; cbn. rewrite H1; cbn. rewrite H2; cbn. rewrite H3; cbn. rewrite H4; cbn.
  rewrite H5; cbn. rewrite H6; cbn. rewrite H7; cbn. rewrite H8; cbn. reflexivity.
Qed.

(** ** C20 *)
Definition group_pos_msg (z : Z) : str := "GROUP BY position " ++ str_of_Z z ++ " is not in select list".
Definition order_pos_msg (z : Z) : str := "ORDER BY position " ++ str_of_Z z ++ " is not in select list".
Lemma bad_position_spec : forall n z,
  bad_position n z = ((z <=? 0)%Z || (Z.of_nat n <? z)%Z).
Proof.
  intros. unfold bad_position.
  destruct (Z.leb_spec 1 z), (Z.leb_spec z (Z.of_nat n)), (Z.leb_spec z 0), (Z.ltb_spec (Z.of_nat n) z);
    cbn; lia || auto.
Qed.
Lemma group_pos : forall K exprs e z, wraps e (NInt z) ->
  group_arg_errors K exprs e = Ok (if bad_position (length exprs) z then [group_pos_msg z] else []).
Proof.
  intros. unfold group_arg_errors. rewrite (wraps_unparen _ _ H), bad_position_spec. cbn.
  destruct ((z <=? 0)%Z || (Z.of_nat (length exprs) <? z)%Z); auto.
Qed.
Lemma order_pos : forall n e z rest, wraps e (NInt z) ->
  order_item_errors (Some n) e rest = Ok (if bad_position n z then [order_pos_msg z] else []).
Proof.
  intros. unfold order_item_errors. rewrite (wraps_unparen _ _ H), bad_position_spec. cbn.
  destruct (z <=? 0)%Z; cbn; auto.
Qed.
Lemma concat_filter : forall {A} (f : A -> bool) (g : A -> str) l,
  concat (map (fun z => if f z then [g z] else []) l) = map g (filter f l).
Proof. induction l; cbn; auto. destruct (f a); cbn; congruence. Qed.

Lemma group_positions : forall ord exprs all dis don from_ where_ having order limit offset semi args zs rollup each,
  validate_top ord (NSelect exprs all dis don from_ where_ None having order limit offset semi) = Ok [] ->
  Forall2 (fun e z => wraps e (NInt z)) args zs ->
  validate_top ord (NSelect exprs all dis don from_ where_ (Some (args, rollup, each)) having order limit offset semi)
  = Ok (map (fun z => "GROUP BY position " ++ str_of_Z z ++ " is not in select list")
          (filter (bad_position (length exprs)) zs)).
Proof.
  intros * H F. unfold validate_top in *.
  apply select_parts in H as (K & e1 & e2 & e3 & e4 & e5 & e6 & e7 & e8 & H0 & H1 & H2 & H3 & H4 & H5 & H6 & H7 & H8 & E).
  symmetry in E. nils E.
  erewrite select_build; eauto.
  2:{ cbn. unfold rconcat.
      assert (rmap (group_arg_errors K exprs) args
              = Ok (map (fun z => if bad_position (length exprs) z then [group_pos_msg z] else []) zs)) as ->.
      { apply rmap_Ok. induction F; constructor; auto. apply group_pos; auto. }
      reflexivity. }
  cbn. rewrite concat_filter, app_nil_r. reflexivity.
Qed.
Lemma order_positions : forall ord exprs all dis don from_ where_ group having limit offset semi items zs,
  validate_top ord (NSelect exprs all dis don from_ where_ group having None limit offset semi) = Ok [] ->
  Forall2 (fun i z => exists e a d, i = NOrderItem e a d /\ wraps e (NInt z)) items zs ->
  validate_top ord (NSelect exprs all dis don from_ where_ group having (Some items) limit offset semi)
  = Ok (map (fun z => "ORDER BY position " ++ str_of_Z z ++ " is not in select list")
          (filter (bad_position (length exprs)) zs)).
Proof.
  intros * H F. unfold validate_top in *.
  apply select_parts in H as (K & e1 & e2 & e3 & e4 & e5 & e6 & e7 & e8 & H0 & H1 & H2 & H3 & H4 & H5 & H6 & H7 & H8 & E).
  symmetry in E. nils E.
  erewrite select_build; eauto.
  2:{ cbn. unfold rconcat.
      match goal with |- context [rmap ?f items] =>
      assert (rmap f items
              = Ok (map (fun z => if bad_position (length exprs) z then [order_pos_msg z] else []) zs)) as -> end.
      { apply rmap_Ok. induction F as [|i z l1 l2 (e & a & d & -> & W)]; constructor; auto. apply order_pos; auto. }
      reflexivity. }
  cbn. rewrite concat_filter, app_nil_r. reflexivity.
Qed.

(** ** C22 *)
Lemma join_errors : forall ord known ty l r on_ using_,
  validate ord known (NJoin ty l r on_ using_)
  = Ok (if mem ty ["CROSS JOIN"; ","] then []
        else match on_, using_ with None, None => ["Missing ON or USING for join"] | _, _ => [] end).
Proof. intros. cbn. destruct (str_eqb ty _), (str_eqb ty _), on_, using_; reflexivity. Qed.

(** ** C21 *)
Lemma form_type_return : forall e t, form_type e t -> return_type e = Ok (Some t).
Proof. intros e t H. induction H; cbn; auto. Qed.
Lemma return_form_type : forall e t, return_type e = Ok (Some t) -> t <> TObject -> form_type e t.
Proof.
  fix IH 1. intros e t H N. destruct e; cbn in H;
    try (injection H as <-; try (constructor; fail); contradiction); try discriminate.
  - constructor. apply IH; auto.
  - destruct args; [discriminate|]. constructor. apply IH; auto.
  - constructor. apply IH; auto.
Qed.
Lemma bool_errors_spec : forall ord who e K es, bool_errors ord who e K = Ok es ->
  exists t, resolve ord e K = Ok (Some t) /\
  es = if ty_eqb t TBool || ty_eqb t TObject then []
       else ["The argument of " ++ who ++ " must be type boolean, not type " ++ ty_name t].
Proof.
  unfold bool_errors. intros. inv_bind H. destruct a as [t|]; [|discriminate]. exists t. split; auto.
  destruct t; injection H as <-; reflexivity.
Qed.

(** ** C17 *)
Lemma fnamed_In : forall n s, fnamed n s = true <-> exists t, In (n, t) s.
Proof.
  intros. unfold fnamed. rewrite existsb_exists. split.
  - intros [[x t] [H1 H2]]. apply str_eqb_eq in H2. cbn in H2. subst. eauto.
  - intros [t H]. exists (n, t). split; auto. apply str_eqb_refl.
Qed.
Lemma oty_eqb_eq : forall a b, oty_eqb a b = true <-> a = b.
Proof. intros [[]|] [[]|]; cbn; split; congruence. Qed.
Lemma field_eqb_eq : forall a b, field_eqb a b = true <-> a = b.
Proof.
  intros [a t] [b u]. unfold field_eqb. cbn. rewrite andb_true_iff, str_eqb_eq, oty_eqb_eq.
  split; [intros [-> ->]; auto | intros [= -> ->]; auto].
Qed.
Lemma fadd_In : forall f g s, In f (fadd g s) <-> f = g \/ In f s.
Proof.
  intros. unfold fadd. destruct (existsb (field_eqb g) s) eqn:E.
  - split; auto. intros [->|]; auto. apply existsb_exists in E as [x [H1 H2]].
    apply field_eqb_eq in H2. subst. auto.
  - rewrite in_app_iff. cbn. intuition.
Qed.
Lemma funion_In : forall f a b, In f (funion a b) <-> In f a \/ In f b.
Proof.
  intros f a b. unfold funion. revert a. induction b; intros; cbn.
  - tauto.
  - rewrite IHb, fadd_In. intuition.
Qed.
Lemma fset_In : forall f l, In f (fset l) <-> In f l.
Proof. intros. unfold fset. rewrite funion_In. cbn. tauto. Qed.

Lemma known_join : forall ty l r o u, plain_from l -> plain_from r ->
  known_fields (NJoin ty l r o u) = (a <- known_fields l ;; b <- known_fields r ;; Ok (funion a b)).
Proof. intros * H H0. destruct H, H0; reflexivity. Qed.
Lemma plain_from_star : forall f, plain_from f -> exists fs, known_fields f = Ok fs /\ fnamed "*" fs = true.
Proof.
  intros f H. induction H.
  - exists [star]. auto.
  - destruct IHplain_from1 as (a & A1 & A2), IHplain_from2 as (b & B1 & B2).
    exists (funion a b). split.
    + rewrite known_join by auto. rewrite A1; cbn; rewrite B1; auto.
    + apply fnamed_In in A2 as [t A2]. apply fnamed_In. exists t. apply funion_In. auto.
Qed.
Lemma visible_star : forall K f K', visible K f = Ok K' -> fnamed "*" K = true -> fnamed "*" K' = true.
Proof.
  intros K f K' H S. unfold visible in H. destruct f; [|congruence].
  destruct (known_fields n) as [fs|e].
  - injection H as <-. apply fnamed_In in S as [t S]. apply fnamed_In. exists t. apply funion_In; auto.
  - destruct e; congruence.
Qed.

Lemma startswith_no : forall p s, startswith p s = false -> forall r, s <> p ++ r.
Proof. intros p s H r ->. now rewrite startswith_app in H. Qed.
Ltac no_name :=
  let H := fresh in
  intro H; inversion H; discriminate.

Lemma bool_errors_no_name : forall ord who e K es m,
  bool_errors ord who e K = Ok es -> In m es -> ~ name_error m.
Proof.
  intros. apply bool_errors_spec in H as (t & _ & ->).
  destruct (ty_eqb t TBool || ty_eqb t TObject); [contradiction|]. destruct H0 as [<-|[]]. no_name.
Qed.
Lemma count_errors_no_name : forall a b e es m, ~ name_error a -> ~ name_error b ->
  count_errors a b e = Ok es -> In m es -> ~ name_error m.
Proof.
  intros a b e es m Ha Hb H H0. apply count_errors_inv in H as [(z & _ & ->) | (-> & _)].
  - destruct (z <? 0)%Z; [destruct H0 as [<-|[]]; auto | contradiction].
  - destruct H0 as [<-|[]]. auto.
Qed.
Lemma group_no_name : forall K exprs e es m, fnamed "*" K = true ->
  group_arg_errors K exprs e = Ok es -> In m es -> ~ name_error m.
Proof.
  intros K exprs e es m S H I. unfold group_arg_errors in H. inv_bind H.
  destruct a; cbv beta zeta in H; try (injection H as <-; contradiction);
    try (rewrite S in H; cbn [negb] in H; rewrite !andb_false_r in H; injection H as <-; contradiction).
  destruct ((z <=? 0)%Z || _); injection H as <-; [destruct I as [<-|[]]; no_name | contradiction].
Qed.
Lemma order_no_name : forall n e rest es m, (forall es, rest = Ok es -> In m es -> ~ name_error m) ->
  order_item_errors n e rest = Ok es -> In m es -> ~ name_error m.
Proof.
  intros n e rest es m Hr H I. unfold order_item_errors in H. inv_bind H.
  destruct a; try (eapply Hr; eauto; fail).
  destruct (z <=? 0)%Z; [injection H as <-; destruct I as [<-|[]]; no_name|].
  destruct n as [n|]; [|discriminate].
  destruct (Z.of_nat n <? z)%Z; injection H as <-; [destruct I as [<-|[]]; no_name | contradiction].
Qed.

(** no name errors below [n] when "*" is known and every FROM inside names tables only *)
Lemma froms_plain_inside : forall n c, froms_plain n -> inside c n -> froms_plain c.
Proof. intros n c H I s f O. apply H. eapply occurs_trans; eauto. now apply inside_occurs. Qed.

Ltac in_app H := repeat (apply in_app_or in H; destruct H as [H|H]).
Ltac child := apply inside_child; cbn; repeat rewrite in_app_iff; cbn; auto 20.
Ltac child2 x := apply inside_child2 with (d := x); cbn; repeat rewrite in_app_iff; cbn; auto 20.

Definition starry (n : node) (K : fields) : Prop :=
  if is_select n then forall K', visible K (from_of n) = Ok K' -> fnamed "*" K' = true
  else fnamed "*" K = true.
Lemma starry_star : forall n K, fnamed "*" K = true -> starry n K.
Proof. intros n K S. unfold starry. destruct (is_select n); auto. intros. eapply visible_star; eauto. Qed.

Ltac usec IHc S :=
  match goal with
  | H : validate _ _ _ = Ok ?a, I : In _ ?a |- _ => eapply IHc; [| exact S | exact H | exact I]
  end.

Ltac useb :=
  match goal with
  | H : bool_errors _ _ _ _ = Ok ?a, I : In _ ?a |- _ => exact (bool_errors_no_name _ _ _ _ _ _ H I)
  end.

Lemma validate_no_name : forall n ord K es m, froms_plain n -> starry n K ->
  validate ord K n = Ok es -> In m es -> ~ name_error m.
Proof.
  intros n. induction n as [n IH] using node_inside_ind. intros ord K es m FP S H I.
  assert (IHc : forall c K es, inside c n -> fnamed "*" K = true ->
                validate ord K c = Ok es -> In m es -> ~ name_error m).
  { intros c K' es' Hc S'. eapply IH; eauto. eapply froms_plain_inside; eauto. now apply starry_star. }
  assert (IHl : forall l K es, (forall c, In c l -> inside c n) -> fnamed "*" K = true ->
                rconcat (validate ord K) l = Ok es -> In m es -> ~ name_error m).
  { intros l K' es' Hl S' Hr Hm. eapply rconcat_In_inv in Hr as (x & ex & Hx & He & Hi); eauto. }
  clear IH.
  destruct n; cbn in S; try (cbn in H; injection H as <-; contradiction).
  - (* select *)
    apply select_parts in H as (K' & e1 & e2 & e3 & e4 & e5 & e6 & e7 & e8 & H0 & H1 & H2 & H3 & H4 & H5 & H6 & H7 & H8 & ->).
    pose proof (S _ H0) as S'.
    in_app I.
    + eapply IHl; [| exact S' | exact H1 | exact I]. intros; child.
    + destruct from_ as [f|]; [|injection H2 as <-; contradiction]. cbn in H2.
      assert (PF : plain_from f) by (eapply FP; [constructor | reflexivity]).
      destruct PF; [cbn in H2; injection H2 as <-; contradiction|].
      rewrite join_errors in H2. injection H2 as <-.
      match type of I with In _ (if ?b then _ else _) => destruct b end; [contradiction|]. destruct on_, using_; try contradiction.
      destruct I as [<-|[]]. no_name.
    + destruct where_ as [x|]; [|injection H3 as <-; contradiction]. cbn in H3.
      inv_bind H3. inv_bind H3. injection H3 as <-. in_app I.
      * eapply IHc; [| exact S' | exact Hb | exact I]. child.
      * useb.
    + destruct group as [[[args ru] ea]|]; [|injection H4 as <-; contradiction]. cbn in H4.
      eapply rconcat_In_inv in H4 as (x & ex & Hx & He & Hi); eauto. eapply group_no_name; eauto.
    + destruct having as [x|]; [|injection H5 as <-; contradiction]. cbn in H5.
      inv_bind H5. inv_bind H5. injection H5 as <-. in_app I.
      * eapply IHc; [| exact S' | exact Hb | exact I]. child.
      * useb.
    + destruct order as [l|]; [|injection H6 as <-; contradiction]. cbn in H6.
      eapply rconcat_In_inv in H6 as (x & ex & Hx & He & Hi); eauto.
      destruct x; try discriminate. eapply order_no_name; [| exact He | exact Hi].
      intros es' H' I'. eapply IHc; [| exact S' | exact H' | exact I'].
      child2 (NOrderItem x asc desc).
    + destruct limit as [[b [x|]]|]; [|discriminate|injection H7 as <-; contradiction].
      cbn in H7. eapply count_errors_no_name; [| | exact H7 | exact I]; no_name.
    + destruct offset as [x|]; [|injection H8 as <-; contradiction].
      cbn in H8. eapply count_errors_no_name; [| | exact H8 | exact I]; no_name.
  - cbn in H. eapply IHl; [| exact S | exact H | exact I]. intros; child.
  - cbn in H. inv_bind H. discriminate.
  - cbn in H. eapply IHl; [| exact S | exact H | exact I]. intros; child.
  - cbn in H. eapply IHc; [| exact S | exact H | exact I]. child.
  - cbn in H. inv_bind H. inv_bind H. injection H as <-. in_app I; usec IHc S; child.
  - cbn in H. inv_bind H. inv_bind H. inv_bind H. injection H as <-. in_app I.
    + usec IHc S; child.
    + destruct partition as [l|]; [|injection Hb0 as <-; contradiction]. cbn in Hb0.
      eapply IHl; [| exact S | exact Hb0 | exact I]. intros; child.
    + destruct order as [l|]; [|injection Hb1 as <-; contradiction]. cbn in Hb1.
      eapply rconcat_In_inv in Hb1 as (x & ex & Hx & He & Hi); eauto.
      destruct x; try discriminate. eapply order_no_name; [| exact He | exact Hi].
      intros es' H' I'. eapply IHc; [| exact S | exact H' | exact I'].
      child2 (NOrderItem x asc desc).
  - cbn in H. unfold column_errors in H. rewrite S, !andb_false_r in H. injection H as <-. contradiction.
  - cbn in H. unfold chained_errors in H. inv_bind H. inv_bind H. rewrite S, !andb_false_r in H.
    injection H as <-. contradiction.
  - cbn in H. eapply IHl; [| exact S | exact H | exact I]. intros; child.
  - cbn in H. eapply IHc; [| exact S | exact H | exact I]. child.
  - rewrite join_errors in H. injection H as <-.
    match type of I with In _ (if ?b then _ else _) => destruct b end; [contradiction|]. destruct on_, using_; try contradiction.
    destruct I as [<-|[]]. no_name.
  - cbn in H. inv_bind H. inv_bind H. injection H as <-. in_app I.
    + usec IHc S; child.
    + destruct (str_eqb (lower pred) "between").
      * destruct n2; try discriminate. inv_bind Hb0. inv_bind Hb0. injection Hb0 as <-.
        in_app I; usec IHc S; child2 (NBoolC ty n2_1 n2_2).
      * usec IHc S; child.
  - cbn in H. do 4 inv_bind H. injection H as <-. in_app I.
    + usec IHc S; child.
    + useb.
    + usec IHc S; child.
    + useb.
  - cbn in H. eapply rconcat_In_inv in H as (x & ex & Hx & He & Hi); eauto.
    destruct x; try discriminate. destruct alias; try discriminate.
    eapply IHc; [| exact S | exact He | exact Hi]. child2 (NAlias x (inr n0) with_as).
Qed.

Lemma schemaless : forall ord n f es m,
  froms_plain n -> from_of n = Some f -> validate_top ord n = Ok es -> In m es -> ~ name_error m.
Proof.
  intros ord n f es m FP F H I. destruct n; try discriminate. unfold validate_top in H.
  cbn in F. subst.
  assert (PF : plain_from f) by (eapply FP; [constructor | reflexivity]).
  destruct (plain_from_star _ PF) as (fs & F1 & F2).
  eapply validate_no_name with (ord := ord) (K := []); eauto.
  cbn. intros K'. rewrite F1. intros [= <-]. apply fnamed_In in F2 as [t F2]. apply fnamed_In. exists t.
  apply funion_In. auto.
Qed.

(** ** C18 *)
Definition missing_in (v : str) (K : fields) : Prop :=
  fnamed v K = false /\ v <> "*" /\ fnamed "*" K = false /\ fmatching v K = [].
Definition missing_msg (v : str) : str := "The column " ++ v ++ " was not found".
Lemma column_missing : forall v K, missing_in v K -> column_errors v K = [missing_msg v].
Proof.
  intros v K (A & B & C & D). unfold column_errors. rewrite A, C, D.
  apply str_eqb_neq in B. rewrite B. reflexivity.
Qed.

Lemma reads_reported : forall e ord v K es, reads v e -> missing_in v K ->
  validate ord K e = Ok es -> In (missing_msg v) es.
Proof.
  intros e. induction e as [e IH] using node_inside_ind. intros ord v K es Rd M H.
  assert (L : forall args a es, In a args -> (forall c, In c args -> inside c e) -> reads v a ->
              rconcat (validate ord K) args = Ok es -> In (missing_msg v) es).
  { intros args a es' Ha Hc R' Hr. destruct (rconcat_each _ _ _ _ Hr Ha) as [ex E].
    eapply rconcat_In; eauto. }
  inversion Rd; subst; cbn in H.
  - injection H as <-. rewrite column_missing by auto. cbn; auto.
  - eapply L; eauto. intros; child.
  - eapply L; eauto. intros; child.
  - eapply L; eauto. intros; child.
  - eapply IH; eauto. child.
  - eapply IH; eauto. child.
  - inv_bind H. inv_bind H. injection H as <-. apply in_or_app. left. eapply IH; eauto. child.
  - inv_bind H. inv_bind H. injection H as <-. apply in_or_app. right. eapply IH; eauto. child.
  - inv_bind H. inv_bind H. inv_bind H. injection H as <-. apply in_or_app. left. eapply IH; eauto. child.
  - inv_bind H. inv_bind H. inv_bind H. injection H as <-. apply in_or_app. right. apply in_or_app. left.
    cbn in Hb0. eapply L; eauto. intros; child.
  - inv_bind H. inv_bind H. injection H as <-. apply in_or_app. left. eapply IH; eauto. child.
  - inv_bind H. inv_bind H. injection H as <-. apply in_or_app. right.
    destruct (str_eqb (lower p) "between").
    + destruct r; try discriminate. inv_bind Hb0. inv_bind Hb0. injection Hb0 as <-.
      inversion H0; subst; apply in_or_app; [left | right]; eapply IH; eauto; child2 (NBoolC ty r1 r2).
    + eapply IH; eauto. child.
  - do 4 inv_bind H. injection H as <-. apply in_or_app. left. eapply IH; eauto. child.
  - do 4 inv_bind H. injection H as <-. apply in_or_app. right. apply in_or_app. right.
    apply in_or_app. left. eapply IH; eauto. child.
Qed.

Lemma output_field : forall e x l, output e x -> select_field e = Ok l -> exists t, l = [(x, t)].
Proof.
  intros e x l O H. destruct O; cbn in H.
  - injection H as <-. eauto.
  - inv_bind H. injection H as <-. eauto.
  - inv_bind H. injection H as <-. eauto.
Qed.
Lemma fset_names : forall es names fs, Forall2 output es names -> rmap select_field es = Ok fs ->
  forall x t, In (x, t) (fset (concat fs)) -> In x names.
Proof.
  intros es names fs O H x t I. rewrite fset_In in I. apply rmap_Ok in H. revert names O.
  induction H; intros names O; [contradiction|]. inversion O as [|? ? ? ? Ho Hr]; subst.
  destruct (output_field _ _ _ Ho H) as [u ->]. cbn in I. destruct I as [I|I].
  - injection I as -> ->. left; auto.
  - right. eapply IHForall2; eauto.
Qed.

Lemma known_paren : forall a r, known_fields (NParen (a :: r))
  = match known_fields a with Err AttributeError => Ok [] | r => r end.
Proof. reflexivity. Qed.
Lemma subquery_fields : forall n names K, from_subquery n names -> ~ In "*" names ->
  visible [] (from_of n) = Ok K -> forall x t, In (x, t) K -> In x names.
Proof.
  intros n names K (subs & a & d & don & f & w & g & h & o & l & off & s & rest & F & O) N V x t I.
  rewrite F in V. unfold visible in V.
  assert (KF : forall fs, known_fields (NSelect subs a d don f w g h o l off s) = Ok fs ->
               forall x t, In (x, t) fs -> In x names).
  { clear - O N. intros fs H x t I. cbn [known_fields] in H. inv_bind H.
    pose proof (fset_names _ _ _ O Hb) as FN.
    assert (S : fnamed "*" (fset (concat a0)) = false).
    { destruct (fnamed "*" (fset (concat a0))) eqn:E; auto. apply fnamed_In in E as [u E].
      apply FN in E. contradiction. }
    rewrite S in H. cbn [andb] in H.
    destruct f as [f|]; [|injection H as <-; eauto].
    destruct f; try (injection H as <-; eauto; fail).
    destruct args as [|y ys]; [discriminate|].
    destruct y; try (injection H as <-; eauto; fail).
    inv_bind H. injection H as <-. eauto. }
  rewrite known_paren in V.
  destruct (known_fields (NSelect subs a d don f w g h o l off s)) as [fs|e].
  - injection V as <-. rewrite funion_In in I. destruct I as [[]|I]. eapply KF; eauto.
  - destruct e; try discriminate; injection V as <-; destruct I.
Qed.

Lemma not_among_missing : forall v names K, not_among v names -> v <> "*" -> ~ In "*" names ->
  (forall x t, In (x, t) K -> In x names) -> missing_in v K.
Proof.
  intros v names K A B C D. repeat split; auto.
  - destruct (fnamed v K) eqn:E; auto. apply fnamed_In in E as [t E]. apply D in E.
    apply A in E as [E _]. contradiction.
  - destruct (fnamed "*" K) eqn:E; auto. apply fnamed_In in E as [t E]. apply D in E. contradiction.
  - unfold fmatching. induction K as [|[x t] K IH]; cbn; auto.
    assert (In x names) by (eapply D; left; eauto). apply A in H as [_ H].
    apply str_eqb_neq in H. rewrite H. apply IH. intros. eapply D. right; eauto.
Qed.

Lemma missing_reported : forall ord n names e v es,
  from_subquery n names -> ~ In "*" names -> v <> "*" -> not_among v names ->
  validated_in e n -> reads v e -> validate_top ord n = Ok es -> In (missing_msg v) es.
Proof.
  intros ord n names e v es F N V A P Rd H.
  destruct n; try (inversion P; fail). unfold validate_top in H.
  apply select_parts in H as (K & e1 & e2 & e3 & e4 & e5 & e6 & e7 & e8 & H0 & H1 & H2 & H3 & H4 & H5 & H6 & H7 & H8 & ->).
  assert (M : missing_in v K).
  { eapply not_among_missing; eauto. eapply subquery_fields; eauto. }
  rewrite !in_app_iff. inversion P; subst.
  - left. match goal with X : In e exprs |- _ => destruct (rconcat_each _ _ _ _ H1 X) as [ex E] end.
    eapply rconcat_In; eauto. eapply reads_reported; eauto.
  - cbn in H3. inv_bind H3. inv_bind H3. injection H3 as <-.
    right; right; left. apply in_or_app. left. eapply reads_reported; eauto.
  - cbn in H5. inv_bind H5. inv_bind H5. injection H5 as <-.
    do 4 right. left. apply in_or_app. left. eapply reads_reported; eauto.
  - cbn in H6. match goal with X : In (NOrderItem e asc desc) items |- _ => destruct (rconcat_each _ _ _ _ H6 X) as [ex E] end.
    do 5 right. left.
    eapply rconcat_In; eauto. cbn in E. unfold order_item_errors in E. inv_bind E.
    destruct a; try (eapply reads_reported; eauto; fail).
    apply unparen_wraps in Hb. exfalso. match goal with X : forall z, ~ wraps e _ |- _ => exact (X _ Hb) end.
Qed.

Lemma group_missing_reported : forall ord n names v es exprs a d don f w args ru ea h o l off s arg,
  n = NSelect exprs a d don f w (Some (args, ru, ea)) h o l off s ->
  from_subquery n names -> ~ In "*" names -> v <> "*" -> not_among v names ->
  In arg args -> wraps arg (NColumn v) ->
  (forall e w', ~ In (NAlias e (inl v) w') exprs) ->
  validate_top ord n = Ok es -> In ("column """ ++ v ++ """ does not exist") es.
Proof.
  intros * -> F N V A Ha W NA H. unfold validate_top in H.
  apply select_parts in H as (K & e1 & e2 & e3 & e4 & e5 & e6 & e7 & e8 & H0 & H1 & H2 & H3 & H4 & H5 & H6 & H7 & H8 & ->).
  assert (M : missing_in v K).
  { eapply not_among_missing; eauto. eapply subquery_fields; eauto. }
  rewrite !in_app_iff. do 3 right. left. cbn in H4.
  destruct (rconcat_each _ _ _ _ H4 Ha) as [ex E]. eapply rconcat_In; eauto.
  unfold group_arg_errors in E. rewrite (wraps_unparen _ _ W) in E. cbn [unparen rbind] in E.
  destruct M as (M1 & M2 & M3 & M4).
  assert (SA : mem v (string_aliases exprs) = false).
  { apply mem_false. unfold string_aliases. intros I. apply in_flat_map in I as (x & I1 & I2).
    destruct x; try contradiction. destruct alias; try contradiction. destruct I2 as [->|[]].
    eapply NA; eauto. }
  rewrite M1, SA, M3, M4 in E. cbn in E. injection E as <-. left. reflexivity.
Qed.

(** ** C21 *)
Lemma resolve_form : forall ord e K t, (forall s : fields, Permutation (ord s) s) ->
  resolve ord e K = Ok t ->
  (return_type e = Ok t /\ (K = [] \/ exists x, render Tr e = Ok x /\ fnamed x K = false))
  \/ exists x, render Tr e = Ok x /\ In (x, t) K.
Proof.
  intros ord e K t P H. unfold resolve in H. destruct (is_select e); [discriminate|].
  destruct (ord K) as [|f l] eqn:E.
  - left. split; auto. left. specialize (P K). rewrite E in P. apply Permutation_nil in P. auto.
  - inv_bind H. destruct (filter (fun f => str_eqb (fst f) a) (f :: l)) as [|g l'] eqn:F.
    + left. split; auto. right. exists a. split; auto.
      destruct (fnamed a K) eqn:N; auto. apply fnamed_In in N as [u N].
      assert (In (a, u) (ord K)). { eapply Permutation_in; [symmetry; apply P|]. auto. }
      rewrite E in H0.
      assert (X : In (a, u) (filter (fun f => str_eqb (fst f) a) (f :: l))).
      { apply filter_In. split; auto. apply str_eqb_refl. }
      rewrite F in X. destruct X.
    + right. exists a. injection H as <-. split; auto.
      assert (X : In g (filter (fun f => str_eqb (fst f) a) (f :: l))) by (rewrite F; left; auto).
      apply filter_In in X as [X1 X2]. apply str_eqb_eq in X2. destruct g as [y u]. cbn in *. subst y.
      eapply Permutation_in; [apply P|]. rewrite E. auto.
Qed.

(** ** C23 *)
Section Order.
  Variables (o1 o2 : fields -> fields).
  Hypothesis P1 : forall s, Permutation (o1 s) s.
  Hypothesis P2 : forall s, Permutation (o2 s) s.
  Variable T : str -> option ty.
  Definition agrees (K : fields) : Prop := forall x t, In (x, t) K -> t = T x.

  Lemma resolve_eq : forall e K, agrees K -> resolve o1 e K = resolve o2 e K.
  Proof.
    intros e K A. unfold resolve. destruct (is_select e); auto.
    assert (N : o1 K = [] <-> o2 K = []).
    { split; intros E.
      - pose proof (P1 K) as Q. rewrite E in Q. apply Permutation_nil in Q. subst.
        pose proof (P2 []) as Q. apply Permutation_sym, Permutation_nil in Q. auto.
      - pose proof (P2 K) as Q. rewrite E in Q. apply Permutation_nil in Q. subst.
        pose proof (P1 []) as Q. apply Permutation_sym, Permutation_nil in Q. auto. }
    assert (X : forall o, (forall s, Permutation (o s) s) -> forall t,
       match filter (fun f => str_eqb (fst f) t) (o K) with f :: _ => Ok (snd f) | [] => return_type e end
       = if fnamed t K then Ok (T t) else return_type e).
    { intros o P t. destruct (filter (fun f => str_eqb (fst f) t) (o K)) as [|g l] eqn:F.
      - destruct (fnamed t K) eqn:Fn; auto. apply fnamed_In in Fn as [u Fn].
        assert (Y : In (t, u) (filter (fun f => str_eqb (fst f) t) (o K))).
        { apply filter_In. split; [|apply str_eqb_refl].
          eapply Permutation_in; [symmetry; apply P|]. auto. }
        rewrite F in Y. destruct Y.
      - assert (Y : In g (filter (fun f => str_eqb (fst f) t) (o K))) by (rewrite F; left; auto).
        apply filter_In in Y as [Y1 Y2]. apply str_eqb_eq in Y2. destruct g as [y u]. cbn in *. subst y.
        assert (In (t, u) K) by (eapply Permutation_in; [apply P|]; auto).
        rewrite (A _ _ H). assert (fnamed t K = true) as -> by (apply fnamed_In; eauto). auto. }
    pose proof (X o1 P1) as X1. pose proof (X o2 P2) as X2.
    destruct (o1 K) as [|f1 l1] eqn:E1, (o2 K) as [|f2 l2] eqn:E2; auto.
    - destruct N as [N _]. specialize (N eq_refl). discriminate.
    - destruct N as [_ N]. specialize (N eq_refl). discriminate.
    - destruct (render Tr e); cbn [rbind]; auto. rewrite X1, X2. auto.
  Qed.

  Lemma bool_errors_eq : forall who e K, agrees K -> bool_errors o1 who e K = bool_errors o2 who e K.
  Proof. intros. unfold bool_errors. rewrite resolve_eq; auto. Qed.

  Definition froms_agree (n : node) : Prop := forall s f fs x t,
    occurs s n -> from_of s = Some f -> known_fields f = Ok fs -> In (x, t) fs -> t = T x.

  Lemma visible_agrees : forall n K K', froms_agree n -> agrees K -> visible K (from_of n) = Ok K' -> agrees K'.
  Proof.
    intros n K K' FA A V. unfold visible in V. destruct (from_of n) as [f|] eqn:F; [|injection V as <-; auto].
    destruct (known_fields f) as [fs|e] eqn:E.
    - injection V as <-. intros x t I. rewrite funion_In in I. destruct I as [I|I]; auto.
      eapply FA; eauto. constructor.
    - destruct e; try discriminate; injection V as <-; auto.
  Qed.

  Lemma rconcat_ext : forall {A} (f g : A -> R (list str)) l, (forall x, In x l -> f x = g x) ->
    rconcat f l = rconcat g l.
  Proof. intros. unfold rconcat. rewrite (rmap_ext f g); auto. Qed.
  Lemma ropt_ext : forall {A} (f g : A -> R (list str)) o, (forall x, o = Some x -> f x = g x) ->
    ropt f o = ropt g o.
  Proof. intros. destruct o; cbn; auto. Qed.

  Lemma validate_order : forall n K, froms_agree n -> agrees K -> validate o1 K n = validate o2 K n.
  Proof.
    intros n. induction n as [n IH] using node_inside_ind. intros K FA A.
    assert (IHc : forall c K, inside c n -> agrees K -> validate o1 K c = validate o2 K c).
    { intros c K' I A'. apply IH; auto. intros s f fs x t O. apply FA. eapply occurs_trans; eauto.
      now apply inside_occurs. }
    clear IH. destruct n; cbn [validate]; auto.
    - assert (A0 : agrees []) by (intros x t []).
      destruct (visible K from_) as [K'|] eqn:V; cbn [rbind]; auto.
      assert (A' : agrees K') by (eapply visible_agrees; [exact FA | exact A | exact V]).
      rewrite (rconcat_ext (validate o1 K') (validate o2 K')) by (intros; apply IHc; auto; child).
      destruct (rconcat (validate o2 K') exprs); cbn [rbind]; auto.
      rewrite (ropt_ext (validate o1 []) (validate o2 [])) by (intros; subst; apply IHc; auto; child).
      destruct (ropt (validate o2 []) from_); cbn [rbind]; auto.
      match goal with |- rbind (ropt ?f ?w) _ = rbind (ropt ?g ?w) _ => rewrite (ropt_ext f g) end.
      2:{ intros x ->. rewrite IHc by (auto; child). rewrite bool_errors_eq by auto. auto. }
      match goal with |- rbind ?x _ = rbind ?x _ => destruct x; cbn [rbind]; auto end.
      match goal with |- rbind ?x _ = rbind ?x _ => destruct x; cbn [rbind]; auto end.
      match goal with |- rbind (ropt ?f ?w) _ = rbind (ropt ?g ?w) _ => rewrite (ropt_ext f g) end.
      2:{ intros x ->. rewrite IHc by (auto; child). rewrite bool_errors_eq by auto. auto. }
      match goal with |- rbind ?x _ = rbind ?x _ => destruct x; cbn [rbind]; auto end.
      match goal with |- rbind (ropt ?f ?w) _ = rbind (ropt ?g ?w) _ => rewrite (ropt_ext f g) end.
      2:{ intros x ->. apply rconcat_ext. intros i Hi. destruct i; auto.
          rewrite IHc; auto. child2 (NOrderItem i asc desc). }
      reflexivity.
    - apply rconcat_ext. intros. apply IHc; auto. child.
    - rewrite IHc; auto. child.
    - apply rconcat_ext. intros. apply IHc; auto. child.
    - apply IHc; auto. child.
    - rewrite !IHc; auto; child.
    - rewrite IHc by (auto; child).
      destruct (validate o2 K n); cbn [rbind]; auto.
      rewrite (ropt_ext (rconcat (validate o1 K)) (rconcat (validate o2 K))).
      2:{ intros x ->. apply rconcat_ext. intros. apply IHc; auto. child. }
      match goal with |- rbind ?x _ = rbind ?x _ => destruct x; cbn [rbind]; auto end.
      match goal with |- rbind (ropt ?f ?w) _ = rbind (ropt ?g ?w) _ => rewrite (ropt_ext f g) end.
      2:{ intros x ->. apply rconcat_ext. intros i Hi. destruct i; auto.
          rewrite IHc; auto. child2 (NOrderItem i asc desc). }
      reflexivity.
    - apply rconcat_ext. intros. apply IHc; auto. child.
    - apply IHc; auto. child.
    - rewrite IHc by (auto; child). destruct (validate o2 K n1); cbn [rbind]; auto.
      destruct (str_eqb (lower pred) "between").
      + destruct n2; auto. rewrite !IHc; auto; child2 (NBoolC ty n2_1 n2_2).
      + rewrite IHc; auto; child.
    - rewrite !IHc by (auto; child). rewrite !bool_errors_eq by auto. reflexivity.
    - apply rconcat_ext. intros x Hx. destruct x; auto. destruct alias; auto.
      apply IHc; auto. child2 (NAlias x (inr n0) with_as).
  Qed.
End Order.
