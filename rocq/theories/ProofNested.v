(** C60: what validation looks at is judged, and nothing else. *)
From Verif Require Import PyStr Lib Ast AstLib Render Validate Api SpecVal SpecScope SpecReport ProofVal ProofVal2 ProofReport SpecNested.
From Coq Require Import Permutation.
Local Open Scope str_scope.
Local Open Scope list_scope.

Lemma looked_trans : forall a b c, looked a b -> looked b c -> looked a c.
Proof. intros a b c A B. induction B; auto; [eapply lk_part|eapply lk_clause|eapply lk_from]; eauto. Qed.

Lemma order_origin' : forall n e rest es m,
  order_item_errors n e rest = Ok es -> In m es ->
  (exists es', rest = Ok es' /\ In m es' /\ forall z, ~ wraps e (NInt z))
  \/ exists z, wraps e (NInt z) /\ m = "ORDER BY position " ++ str_of_Z z ++ " is not in select list"
     /\ match n with Some n => bad_position n z = true | None => (z <= 0)%Z end.
Proof.
  intros n e rest es m H I. pose proof H as H'. unfold order_item_errors in H'. inv_bind H'.
  destruct (order_origin _ _ _ _ _ H I) as [(es' & R & I')|X]; [|right; exact X].
  destruct a; try (left; exists es'; split; [exact R|split; [exact I'|]]; intros z W; apply wraps_unparen in W; cbn [unparen] in W; rewrite W in Hb; discriminate Hb).
  right. exists z. split; [apply unparen_wraps; exact Hb|].
  destruct (z <=? 0)%Z eqn:Z0.
  - injection H' as <-. destruct I as [<-|[]]. split; auto. destruct n; [rewrite bad_position_spec, Z0; auto|lia].
  - destruct n as [n|]; [|discriminate]. destruct (Z.of_nat n <? z)%Z eqn:Z1; injection H' as <-; [|contradiction]. destruct I as [<-|[]]. split; auto. rewrite bad_position_spec, Z0, Z1. auto.
Qed.

Ltac here' := match goal with |- exists s, looked s ?n /\ _ => exists n; split; [constructor|] end.

Lemma looked_origin : forall n ord K es m, is_order ord ->
  validate ord K n = Ok es -> In m es -> exists s, looked s n /\ origin m s.
Proof.
  intros n. induction n as [n IH] using node_inside_ind. intros ord K es m P H I.
  assert (IHp : forall c K es, inside c n -> part c n -> validate ord K c = Ok es -> In m es -> exists s, looked s n /\ origin m s).
  { intros c K' es' Hc Hp H' I'. destruct (IH c Hc ord K' es' m P H' I') as (s & O & X). exists s. split; auto. eapply lk_part; eauto. }
  assert (IHv : forall c K es, inside c n -> validated_in c n -> validate ord K c = Ok es -> In m es -> exists s, looked s n /\ origin m s).
  { intros c K' es' Hc Hp H' I'. destruct (IH c Hc ord K' es' m P H' I') as (s & O & X). exists s. split; auto. eapply lk_clause; eauto. }
  assert (IHf : forall c K es, inside c n -> from_of n = Some c -> validate ord K c = Ok es -> In m es -> exists s, looked s n /\ origin m s).
  { intros c K' es' Hc Hp H' I'. destruct (IH c Hc ord K' es' m P H' I') as (s & O & X). exists s. split; auto. eapply lk_from; eauto. }
  assert (IHl : forall l K es, (forall c, In c l -> inside c n) -> (forall c, In c l -> part c n) ->
                rconcat (validate ord K) l = Ok es -> In m es -> exists s, looked s n /\ origin m s).
  { intros l K' es' Hl Hq Hr Hm. eapply rconcat_In_inv in Hr as (x & ex & Hx & He & Hi); eauto. }
  clear IH.
  destruct n; try (cbn in H; injection H as <-; contradiction).
  - apply select_parts in H as (K' & e1 & e2 & e3 & e4 & e5 & e6 & e7 & e8 & H0 & H1 & H2 & H3 & H4 & H5 & H6 & H7 & H8 & ->).
    in_app I.
    + eapply rconcat_In_inv in H1 as (x & ex & Hx & He & Hi); eauto. (eapply IHv; [| |exact He|exact Hi]; [child|apply vi_list; auto]).
    + destruct from_ as [f|]; [|injection H2 as <-; contradiction]. cbn in H2.
      (eapply IHf; [| |exact H2|exact I]; [child|reflexivity]).
    + destruct where_ as [x|]; [|injection H3 as <-; contradiction]. cbn in H3.
      inv_bind H3. inv_bind H3. injection H3 as <-. in_app I.
      * (eapply IHv; [| |exact Hb|exact I]; [child|apply vi_where]).
      * apply bool_typed in Hb0 as (t & T & ->); auto. here'. econstructor; eauto.
    + destruct group as [[[args ru] ea]|]; [|injection H4 as <-; contradiction]. cbn in H4.
      eapply rconcat_In_inv in H4 as (x & ex & Hx & He & Hi); eauto. here'.
      eapply group_origin in He as [(z & W & B & ->)|(v & W & ->)]; eauto; econstructor; eauto.
    + destruct having as [x|]; [|injection H5 as <-; contradiction]. cbn in H5.
      inv_bind H5. inv_bind H5. injection H5 as <-. in_app I.
      * (eapply IHv; [| |exact Hb|exact I]; [child|apply vi_having]).
      * apply bool_typed in Hb0 as (t & T & ->); auto. here'. eapply or_having; eauto.
    + destruct order as [l|]; [|injection H6 as <-; contradiction]. cbn in H6.
      eapply rconcat_In_inv in H6 as (x & ex & Hx & He & Hi); eauto.
      destruct x; try discriminate. eapply order_origin' in He as [(es' & H' & I' & N)|(z & W & -> & B)]; eauto.
      * (eapply IHv; [| |exact H'|exact I']; [child2 (NOrderItem x asc desc)|eapply vi_order; eauto]).
      * here'. econstructor; eauto.
    + destruct limit as [[b [x|]]|]; [|discriminate|injection H7 as <-; contradiction].
      cbn in H7. here'. apply count_errors_inv in H7 as [(z & W & ->) | (-> & N)].
      * destruct (Z.ltb_spec z 0); [destruct I as [<-|[]]|contradiction]. econstructor; eauto.
      * destruct I as [<-|[]]. constructor; auto.
    + destruct offset as [x|]; [|injection H8 as <-; contradiction].
      cbn in H8. here'. apply count_errors_inv in H8 as [(z & W & ->) | (-> & N)].
      * destruct (Z.ltb_spec z 0); [destruct I as [<-|[]]|contradiction]. econstructor; eauto.
      * destruct I as [<-|[]]. constructor; auto.
  - cbn in H. (eapply IHl; [| |exact H|exact I]; [intros; child|intros; constructor; auto]).
  - cbn in H. inv_bind H. discriminate.
  - cbn in H. (eapply IHl; [| |exact H|exact I]; [intros; child|intros; constructor; auto]).
  - cbn in H. (eapply IHp; [| |exact H|exact I]; [child|constructor]).
  - cbn in H. inv_bind H. inv_bind H. injection H as <-. in_app I; [(eapply IHp; [| |exact Hb|exact I]; [child|apply pt_filter_f])|(eapply IHp; [| |exact Hb0|exact I]; [child|apply pt_filter_c])].
  - cbn in H. inv_bind H. inv_bind H. inv_bind H. injection H as <-. in_app I.
    + (eapply IHp; [| |exact Hb|exact I]; [child|apply pt_over_f]).
    + destruct partition as [l|]; [|injection Hb0 as <-; contradiction]. cbn in Hb0.
      (eapply IHl; [| |exact Hb0|exact I]; [intros; child|intros; apply pt_over_p; auto]).
    + destruct order as [l|]; [|injection Hb1 as <-; contradiction]. cbn in Hb1.
      eapply rconcat_In_inv in Hb1 as (x & ex & Hx & He & Hi); eauto.
      destruct x; try discriminate. eapply order_origin' in He as [(es' & H' & I' & N)|(z & W & -> & B)]; eauto.
      * (eapply IHp; [| |exact H'|exact I']; [child2 (NOrderItem x asc desc)|eapply pt_over_o; eauto]).
      * here'. econstructor; eauto.
  - cbn in H. unfold column_errors in H. here'.
    match type of H with Ok (if ?b then _ else _) = _ => destruct b end; [|injection H as <-; contradiction].
    destruct (fmatching _ K) as [|? []]; injection H as <-; try contradiction;
      destruct I as [<-|[]]; constructor.
  - cbn in H. unfold chained_errors in H. inv_bind H. inv_bind H. here'.
    match type of H with (if ?b then _ else _) = _ => destruct b end; [|injection H as <-; contradiction].
    inv_bind H. injection H as <-. destruct I as [<-|[]]. constructor; auto.
  - cbn in H. (eapply IHl; [| |exact H|exact I]; [intros; child|intros; constructor; auto]).
  - cbn in H. (eapply IHp; [| |exact H|exact I]; [child|constructor]).
  - here'. rewrite join_errors in H. injection H as <-.
    match type of I with In _ (if ?b then _ else _) => destruct b eqn:E end; [contradiction|].
    destruct on_, using_; try contradiction.
    destruct I as [<-|[]]. rewrite !orb_false_iff in E. destruct E as (E1 & E2 & _).
    constructor; intros ->; discriminate.
  - cbn in H. inv_bind H. inv_bind H. injection H as <-. in_app I.
    + (eapply IHp; [| |exact Hb|exact I]; [child|apply pt_cond_l]).
    + destruct (str_eqb (lower pred) "between") eqn:B.
      * apply str_eqb_eq in B. destruct n2; try discriminate. inv_bind Hb0. inv_bind Hb0. injection Hb0 as <-.
        in_app I; [(eapply IHp; [| |exact Hb1|exact I]; [child2 (NBoolC ty n2_1 n2_2)|apply pt_between_l; auto])|(eapply IHp; [| |exact Hb2|exact I]; [child2 (NBoolC ty n2_1 n2_2)|apply pt_between_r; auto])].
      * apply str_eqb_neq in B. (eapply IHp; [| |exact Hb0|exact I]; [child|apply pt_cond_r; auto]).
  - cbn in H. do 4 inv_bind H. injection H as <-. in_app I.
    + (eapply IHp; [| |exact Hb|exact I]; [child|apply pt_bool_l]).
    + apply bool_typed in Hb0 as (t & T & ->); auto. here'. econstructor; eauto.
    + (eapply IHp; [| |exact Hb1|exact I]; [child|apply pt_bool_r]).
    + apply bool_typed in Hb2 as (t & T & ->); auto. here'. econstructor; eauto.
  - cbn in H. eapply rconcat_In_inv in H as (x & ex & Hx & He & Hi); eauto.
    destruct x; try discriminate. destruct alias; try discriminate.
    (eapply IHp; [| |exact He|exact Hi]; [child2 (NAlias x (inr n0) with_as)|eapply pt_replace; eauto]).
Qed.

Lemma looked_errors : forall x n, looked x n -> forall ord K es, validate ord K n = Ok es ->
  exists K' es', validate ord K' x = Ok es' /\ incl es' es.
Proof.
  intros x n H. induction H; intros ord K es V.
  - exists K, es. auto using incl_refl.
  - destruct (part_errors _ _ _ _ _ H V) as (es1 & E1 & I1). destruct (IHlooked _ _ _ E1) as (K' & es' & E' & I'). exists K', es'. split; auto. eapply incl_tran; eauto.
  - destruct (validated_errors _ _ _ _ _ H V) as (K1 & es1 & _ & E1 & I1). destruct (IHlooked _ _ _ E1) as (K' & es' & E' & I'). exists K', es'. split; auto. eapply incl_tran; eauto.
  - destruct n; try discriminate H. cbn [from_of] in H. subst from_.
    apply select_parts in V as (K' & e1 & e2 & e3 & e4 & e5 & e6 & e7 & e8 & G0 & G1 & G2 & G3 & G4 & G5 & G6 & G7 & G8 & ->). cbn [ropt] in G2.
    destruct (IHlooked _ _ _ G2) as (K2 & es' & E' & I'). exists K2, es'. split; auto. apply incl_appr, incl_appl, I'.
Qed.

Lemma position_error : forall n e rest es z, order_item_errors n e rest = Ok es -> wraps e (NInt z) ->
  match n with Some n => bad_position n z = true | None => (z <= 0)%Z end ->
  In ("ORDER BY position " ++ str_of_Z z ++ " is not in select list") es.
Proof.
  intros n e rest es z H W B. unfold order_item_errors in H. rewrite (wraps_unparen _ _ W) in H. cbn [unparen rbind] in H.
  destruct (z <=? 0)%Z eqn:Z0; [injection H as <-; left; auto|]. destruct n as [n|]; [|lia]. rewrite bad_position_spec, Z0 in B. cbn [orb] in B. rewrite B in H. injection H as <-. left. auto.
Qed.
Lemma count_error : forall a b e es z, count_errors a b e = Ok es -> wraps e (NInt z) -> (z < 0)%Z -> In b es.
Proof.
  intros a b e es z H W N. unfold count_errors in H. rewrite (wraps_unparen _ _ W) in H. cbn [unparen rbind return_type] in H. apply Z.ltb_lt in N. rewrite N in H. injection H as <-. left. auto.
Qed.
Lemma count_error' : forall a b e es, count_errors a b e = Ok es -> (forall z, ~ wraps e (NInt z)) -> In a es.
Proof.
  intros a b e es H N. apply count_errors_inv in H as [(z & W & _)|(-> & _)]; [destruct (N z W)|left; auto].
Qed.

Definition type_error (m : str) : Prop := exists who t, In m (type_report who t).
Lemma looked_reported : forall ord n s K es m, validate ord K n = Ok es -> looked s n -> origin m s -> ~ name_error m -> ~ type_error m -> In m es.
Proof.
  intros ord n s K es m V L O N T. destruct (looked_errors _ _ L _ _ _ V) as (K' & es' & E & I). apply I. clear V L I n K es.
  destruct O;
    try (exfalso; apply N; constructor; fail); try (exfalso; apply T; eexists _, _; eassumption);
    try (apply select_parts in E as (K1 & e1 & e2 & e3 & e4 & e5 & e6 & e7 & e8 & H0' & H1' & H2' & H3' & H4' & H5' & H6' & H7' & H8' & ->)).
  - do 3 (apply in_or_app; right). apply in_or_app. left. cbn [ropt fst] in H4'. destruct (rconcat_each _ _ _ _ H4' H) as [ex Ex]. eapply rconcat_In; [exact H4'|exact H|exact Ex|].
    unfold group_arg_errors in Ex. rewrite (wraps_unparen _ _ H0) in Ex. cbn [unparen rbind] in Ex. rewrite bad_position_spec in H1. rewrite H1 in Ex. injection Ex as <-. left. auto.
  - do 5 (apply in_or_app; right). apply in_or_app. left. cbn [ropt] in H6'. destruct (rconcat_each _ _ _ _ H6' H) as [ex Ex]. eapply rconcat_In; [exact H6'|exact H|exact Ex|]. cbn beta iota in Ex.
    eapply position_error; [exact Ex|exact H0|exact H1].
  - cbn in E. do 3 inv_bind E. injection E as <-. do 2 (apply in_or_app; right). cbn [ropt] in Hb1. destruct (rconcat_each _ _ _ _ Hb1 H) as [ex Ex]. eapply rconcat_In; [exact Hb1|exact H|exact Ex|]. cbn beta iota in Ex.
    eapply position_error; [exact Ex|exact H0|exact H1].
  - do 6 (apply in_or_app; right). apply in_or_app. left. cbn [ropt snd] in H7'. eapply count_error'; eauto.
  - do 6 (apply in_or_app; right). apply in_or_app. left. cbn [ropt snd] in H7'. eapply count_error; eauto.
  - do 7 (apply in_or_app; right). cbn [ropt snd] in H8'. eapply count_error'; eauto.
  - do 7 (apply in_or_app; right). cbn [ropt snd] in H8'. eapply count_error; eauto.
  - rewrite join_errors in E. destruct (mem ty ["CROSS JOIN"; ","]) eqn:M; [|injection E as <-; left; auto].
    apply mem_In in M. destruct M as [<-|[<-|[]]]; contradiction.
Qed.
Lemma clause_not : forall m, clause_message m -> ~ name_error m /\ ~ type_error m.
Proof.
  intros m C. split.
  - intros N. destruct C; inversion N.
  - intros (who & t & I). destruct C, t; cbn in I; intuition discriminate.
Qed.
Theorem looked_iff : forall ord n es m, is_order ord -> validate_top ord n = Ok es -> clause_message m ->
  (In m es <-> exists s, looked s n /\ origin m s).
Proof.
  intros ord n es m P V C. apply clause_not in C as [N T]. destruct n; try discriminate V. split.
  - intros I. eapply looked_origin; eauto.
  - intros (s & L & O). eapply looked_reported; eauto.
Qed.
Theorem looked_only : forall ord n es m, is_order ord -> validate_top ord n = Ok es -> In m es -> exists s, looked s n /\ origin m s.
Proof. intros ord n es m P V I. destruct n; try discriminate V. eapply looked_origin; eauto. Qed.

Lemma rconcat_infix : forall {A} (f : A -> R (list str)) l es x ex, rconcat f l = Ok es -> In x l -> f x = Ok ex -> exists a b, es = a ++ ex ++ b.
Proof.
  intros A f l es x ex H I E. apply rconcat_Ok in H as (ls & F & ->). induction F; [contradiction|]. destruct I as [->|I].
  - rewrite E in H. injection H as <-. exists [], (concat l'). reflexivity.
  - destruct (IHF I) as (a & b & X). exists (y ++ a), b. cbn [concat]. rewrite X, <- app_assoc. reflexivity.
Qed.
Lemma from_infix : forall x n, in_from x n -> forall ord es, validate ord [] n = Ok es -> exists es' a b, validate ord [] x = Ok es' /\ es = a ++ es' ++ b.
Proof.
  intros x n H. induction H; intros ord es V.
  - exists es, [], []. rewrite app_nil_r. auto.
  - cbn in V. destruct (rconcat_each _ _ _ _ V H) as [ex E]. destruct (rconcat_infix _ _ _ _ _ V H E) as (a1 & b1 & ->).
    destruct (IHin_from _ _ E) as (es' & a2 & b2 & E' & ->). exists es', (a1 ++ a2), (b2 ++ b1). split; auto. rewrite <- !app_assoc. reflexivity.
  - cbn in V. eauto.
  - destruct n; try discriminate H. cbn [from_of] in H. subst from_.
    apply select_parts in V as (K' & e1 & e2 & e3 & e4 & e5 & e6 & e7 & e8 & G0 & G1 & G2 & G3 & G4 & G5 & G6 & G7 & G8 & ->). cbn [ropt] in G2.
    destruct (IHin_from _ _ G2) as (es' & a2 & b2 & E' & ->). exists es', (e1 ++ a2), (b2 ++ e3 ++ e4 ++ e5 ++ e6 ++ e7 ++ e8). split; auto. rewrite <- !app_assoc. reflexivity.
Qed.
Theorem from_reported : forall ord s n es, in_from s n -> is_select s = true -> validate_top ord n = Ok es ->
  exists es' a b, validate_top ord s = Ok es' /\ es = a ++ es' ++ b.
Proof. intros ord s n es F S V. destruct n; try discriminate V. destruct (from_infix _ _ F _ _ V) as (es' & a & b & E & ->). exists es', a, b. destruct s; try discriminate S. auto. Qed.
