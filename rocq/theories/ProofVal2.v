(** Validation, continued: where messages come from; clauses of a statement. *)
From Verif Require Import PyStr Lib Ast AstLib Render Validate Api SpecVal ProofVal.
From Coq Require Import Permutation.
Local Open Scope str_scope.
Local Open Scope list_scope.

Lemma form_not_object : forall e, ~ form_type e TObject.
Proof. intros e H. remember TObject as t. induction H; try discriminate; auto. Qed.

Lemma resolve_typed : forall ord e K t, is_order ord ->
  resolve ord e K = Ok (Some t) -> typed K e t.
Proof.
  intros ord e K t P H. apply resolve_form in H as [[H N]|(x & H & I)]; auto.
  - assert (N' : names_none K e).
    { destruct N as [N|(x & N1 & N2)]; [left; auto|]. right. exists x. split; auto.
      intros u I. assert (fnamed x K = true) by (apply fnamed_In; eauto). congruence. }
    destruct (ty_eqb t TObject) eqn:E.
    + destruct t; try discriminate. apply ty_unknown; auto. intros t F.
      apply form_type_return in F as F'. rewrite F' in H. injection H as ->. eapply form_not_object; eauto.
    + apply ty_form; auto. apply return_form_type; auto. intros ->. discriminate.
  - eapply ty_field; eauto.
Qed.

Lemma bool_typed : forall ord who e K es, is_order ord -> bool_errors ord who e K = Ok es ->
  exists t, typed K e t /\ es = type_report who t.
Proof.
  intros ord who e K es P H. apply bool_errors_spec in H as (t & H & ->). exists t.
  split; [eapply resolve_typed; eauto|]. destruct t; reflexivity.
Qed.

Lemma order_origin : forall n e rest es m,
  order_item_errors n e rest = Ok es -> In m es ->
  (exists es', rest = Ok es' /\ In m es')
  \/ exists z, wraps e (NInt z) /\ m = "ORDER BY position " ++ str_of_Z z ++ " is not in select list"
     /\ match n with Some n => bad_position n z = true | None => (z <= 0)%Z end.
Proof.
  intros n e rest es m H I. unfold order_item_errors in H. inv_bind H.
  destruct a; try (left; exists es; split; [exact H | exact I]).
  right. exists z. apply unparen_wraps in Hb. split; auto.
  destruct (z <=? 0)%Z eqn:Z0; [injection H as <-; destruct I as [<-|[]]|].
  - split; auto. destruct n; [rewrite bad_position_spec, Z0; auto | lia].
  - destruct n as [n|]; [|discriminate].
    destruct (Z.of_nat n <? z)%Z eqn:Z1; injection H as <-; [destruct I as [<-|[]]| contradiction].
    split; auto. rewrite bad_position_spec, Z0, Z1. auto.
Qed.

Lemma group_origin : forall K exprs arg es m,
  group_arg_errors K exprs arg = Ok es -> In m es ->
  (exists z, wraps arg (NInt z) /\ bad_position (length exprs) z = true
     /\ m = "GROUP BY position " ++ str_of_Z z ++ " is not in select list")
  \/ exists v, (wraps arg (NColumn v) \/ exists q p, wraps arg (NString v q p))
     /\ m = "column """ ++ v ++ """ does not exist".
Proof.
  intros K exprs e es m H I. unfold group_arg_errors in H. inv_bind H. apply unparen_wraps in Hb.
  destruct a; cbv beta zeta in H; try (injection H as <-; contradiction).
  - right. exists v. split; [left; auto|].
    match type of H with (if ?b then _ else _) = _ => destruct b end; [|injection H as <-; contradiction].
    destruct (fmatching _ K) as [|? []]; try discriminate; injection H as <-; [|contradiction].
    destruct I as [<-|[]]. auto.
  - right. exists v. split; [right; eauto|].
    match type of H with (if ?b then _ else _) = _ => destruct b end; [|injection H as <-; contradiction].
    destruct (fmatching _ K) as [|? []]; try discriminate; injection H as <-; [|contradiction].
    destruct I as [<-|[]]. auto.
  - left. exists z. destruct ((z <=? 0)%Z || _) eqn:E; injection H as <-; [|contradiction].
    destruct I as [<-|[]]. split; auto. rewrite bad_position_spec. auto.
Qed.

Ltac here := match goal with |- exists s, occurs s ?n /\ _ => exists n; split; [constructor|] end.

Lemma validate_origin : forall n ord K es m, is_order ord ->
  validate ord K n = Ok es -> In m es -> exists s, occurs s n /\ origin m s.
Proof.
  intros n. induction n as [n IH] using node_inside_ind. intros ord K es m P H I.
  assert (IHc : forall c K es, inside c n -> True ->
                validate ord K c = Ok es -> In m es -> exists s, occurs s n /\ origin m s).
  { intros c K' es' Hc _ H' I'. destruct (IH c Hc ord K' es' m P H' I') as (s & O & X). exists s.
    split; auto. eapply occurs_trans; eauto. now apply inside_occurs. }
  assert (IHl : forall l K es, (forall c, In c l -> inside c n) ->
                rconcat (validate ord K) l = Ok es -> In m es -> exists s, occurs s n /\ origin m s).
  { intros l K' es' Hl Hr Hm. eapply rconcat_In_inv in Hr as (x & ex & Hx & He & Hi); eauto. }
  clear IH.
  destruct n; try (cbn in H; injection H as <-; contradiction).
  - apply select_parts in H as (K' & e1 & e2 & e3 & e4 & e5 & e6 & e7 & e8 & H0 & H1 & H2 & H3 & H4 & H5 & H6 & H7 & H8 & ->).
    in_app I.
    + eapply IHl; [| exact H1 | exact I]. intros; child.
    + destruct from_ as [f|]; [|injection H2 as <-; contradiction]. cbn in H2.
      eapply IHc; [| exact Logic.I | exact H2 | exact I]. child.
    + destruct where_ as [x|]; [|injection H3 as <-; contradiction]. cbn in H3.
      inv_bind H3. inv_bind H3. injection H3 as <-. in_app I.
      * eapply IHc; [| exact Logic.I | exact Hb | exact I]. child.
      * apply bool_typed in Hb0 as (t & T & ->); auto. here. econstructor; eauto.
    + destruct group as [[[args ru] ea]|]; [|injection H4 as <-; contradiction]. cbn in H4.
      eapply rconcat_In_inv in H4 as (x & ex & Hx & He & Hi); eauto. here.
      eapply group_origin in He as [(z & W & B & ->)|(v & W & ->)]; eauto; econstructor; eauto.
    + destruct having as [x|]; [|injection H5 as <-; contradiction]. cbn in H5.
      inv_bind H5. inv_bind H5. injection H5 as <-. in_app I.
      * eapply IHc; [| exact Logic.I | exact Hb | exact I]. child.
      * apply bool_typed in Hb0 as (t & T & ->); auto. here. eapply or_having; eauto.
    + destruct order as [l|]; [|injection H6 as <-; contradiction]. cbn in H6.
      eapply rconcat_In_inv in H6 as (x & ex & Hx & He & Hi); eauto.
      destruct x; try discriminate. eapply order_origin in He as [(es' & H' & I')|(z & W & -> & B)]; eauto.
      * eapply IHc; [| exact Logic.I | exact H' | exact I'].
        child2 (NOrderItem x asc desc).
      * here. econstructor; eauto.
    + destruct limit as [[b [x|]]|]; [|discriminate|injection H7 as <-; contradiction].
      cbn in H7. here. apply count_errors_inv in H7 as [(z & W & ->) | (-> & N)].
      * destruct (Z.ltb_spec z 0); [destruct I as [<-|[]]|contradiction]. econstructor; eauto.
      * destruct I as [<-|[]]. constructor; auto.
    + destruct offset as [x|]; [|injection H8 as <-; contradiction].
      cbn in H8. here. apply count_errors_inv in H8 as [(z & W & ->) | (-> & N)].
      * destruct (Z.ltb_spec z 0); [destruct I as [<-|[]]|contradiction]. econstructor; eauto.
      * destruct I as [<-|[]]. constructor; auto.
  - cbn in H. eapply IHl; [| exact H | exact I]. intros; child.
  - cbn in H. inv_bind H. discriminate.
  - cbn in H. eapply IHl; [| exact H | exact I]. intros; child.
  - cbn in H. eapply IHc; [| exact Logic.I | exact H | exact I]. child.
  - cbn in H. inv_bind H. inv_bind H. injection H as <-. in_app I; usec IHc Logic.I; child.
  - cbn in H. inv_bind H. inv_bind H. inv_bind H. injection H as <-. in_app I.
    + usec IHc Logic.I; child.
    + destruct partition as [l|]; [|injection Hb0 as <-; contradiction]. cbn in Hb0.
      eapply IHl; [| exact Hb0 | exact I]. intros; child.
    + destruct order as [l|]; [|injection Hb1 as <-; contradiction]. cbn in Hb1.
      eapply rconcat_In_inv in Hb1 as (x & ex & Hx & He & Hi); eauto.
      destruct x; try discriminate. eapply order_origin in He as [(es' & H' & I')|(z & W & -> & B)]; eauto.
      * eapply IHc; [| exact Logic.I | exact H' | exact I'].
        child2 (NOrderItem x asc desc).
      * here. econstructor; eauto.
  - cbn in H. unfold column_errors in H. here.
    match type of H with Ok (if ?b then _ else _) = _ => destruct b end; [|injection H as <-; contradiction].
    destruct (fmatching _ K) as [|? []]; injection H as <-; try contradiction;
      destruct I as [<-|[]]; constructor.
  - cbn in H. unfold chained_errors in H. inv_bind H. inv_bind H. here.
    match type of H with (if ?b then _ else _) = _ => destruct b end; [|injection H as <-; contradiction].
    inv_bind H. injection H as <-. destruct I as [<-|[]]. constructor; auto.
  - cbn in H. eapply IHl; [| exact H | exact I]. intros; child.
  - cbn in H. eapply IHc; [| exact Logic.I | exact H | exact I]. child.
  - here. rewrite join_errors in H. injection H as <-.
    match type of I with In _ (if ?b then _ else _) => destruct b eqn:E end; [contradiction|].
    destruct on_, using_; try contradiction.
    destruct I as [<-|[]]. rewrite !orb_false_iff in E. destruct E as (E1 & E2 & _).
    constructor; intros ->; discriminate.
  - cbn in H. inv_bind H. inv_bind H. injection H as <-. in_app I.
    + usec IHc Logic.I; child.
    + destruct (str_eqb (lower pred) "between").
      * destruct n2; try discriminate. inv_bind Hb0. inv_bind Hb0. injection Hb0 as <-.
        in_app I; usec IHc Logic.I; child2 (NBoolC ty n2_1 n2_2).
      * usec IHc Logic.I; child.
  - cbn in H. do 4 inv_bind H. injection H as <-. in_app I.
    + usec IHc Logic.I; child.
    + apply bool_typed in Hb0 as (t & T & ->); auto. here. econstructor; eauto.
    + usec IHc Logic.I; child.
    + apply bool_typed in Hb2 as (t & T & ->); auto. here. econstructor; eauto.
  - cbn in H. eapply rconcat_In_inv in H as (x & ex & Hx & He & Hi); eauto.
    destruct x; try discriminate. destruct alias; try discriminate.
    eapply IHc; [| exact Logic.I | exact He | exact Hi]. child2 (NAlias x (inr n0) with_as).
Qed.
Lemma error_origin : forall n ord es m, is_order ord ->
  validate_top ord n = Ok es -> In m es -> exists s, occurs s n /\ origin m s.
Proof. intros n ord es m P H I. destruct n; try discriminate. eapply validate_origin; eauto. Qed.


Lemma visible_from : forall f K, visible [] f = Ok K -> from_fields f K.
Proof.
  intros f K H x. unfold visible in H. destruct f as [f|].
  - destruct (known_fields f) as [fs|e] eqn:E.
    + injection H as <-. rewrite funion_In. split.
      * intros [[]|I]. eauto.
      * intros (f' & fs' & [= <-] & E' & I). rewrite E in E'. injection E' as <-. auto.
    + destruct e; try discriminate. injection H as <-. split; [intros []|].
      intros (f' & fs' & [= <-] & E' & I). congruence.
  - injection H as <-. split; [intros []|]. intros (f' & fs' & E & _). discriminate.
Qed.

Ltac parts H := apply select_parts in H as
  (?K & ?e1 & ?e2 & ?e3 & ?e4 & ?e5 & ?e6 & ?e7 & ?e8 & ?H0 & ?H1 & ?H2 & ?H3 & ?H4 & ?H5 & ?H6 & ?H7 & ?H8 & ?E).
Ltac same :=
  repeat match goal with
  | H : ?x = Ok ?a, H' : ?x = Ok ?b |- _ =>
    rewrite H in H'; injection H' as H'; try subst b; try subst a
  end.

Lemma where_rule : forall ord exprs all dis don from_ e group having order limit offset semi es es',
  is_order ord ->
  validate_top ord (NSelect exprs all dis don from_ None group having order limit offset semi) = Ok es ->
  validate_top ord (NSelect exprs all dis don from_ (Some e) group having order limit offset semi) = Ok es' ->
  exists K t a b c, from_fields from_ K /\ typed K e t /\ validate ord K e = Ok c
    /\ es = a ++ b /\ es' = a ++ c ++ type_report "WHERE" t ++ b.
Proof.
  intros * P A B. unfold validate_top in *. parts A. parts B. same.
  cbn in H3, H12. injection H3 as <-. do 2 inv_bind H12. injection H12 as <-.
  apply bool_typed in Hb0 as (t & T & ->); auto.
  exists K, t, (e1 ++ e2), (e4 ++ e5 ++ e6 ++ e7 ++ e8), a.
  split; [apply visible_from; auto|]. split; auto. split; auto. subst. cbn. rewrite <- !app_assoc. auto.
Qed.
Lemma having_rule : forall ord exprs all dis don from_ where_ group e order limit offset semi es es',
  is_order ord ->
  validate_top ord (NSelect exprs all dis don from_ where_ group None order limit offset semi) = Ok es ->
  validate_top ord (NSelect exprs all dis don from_ where_ group (Some e) order limit offset semi) = Ok es' ->
  exists K t a b c, from_fields from_ K /\ typed K e t /\ validate ord K e = Ok c
    /\ es = a ++ b /\ es' = a ++ c ++ type_report "HAVING" t ++ b.
Proof.
  intros * P A B. unfold validate_top in *. parts A. parts B. same.
  cbn in H5, H14. injection H5 as <-. do 2 inv_bind H14. injection H14 as <-.
  apply bool_typed in Hb0 as (t & T & ->); auto.
  exists K, t, (e1 ++ e2 ++ e3 ++ e4), (e6 ++ e7 ++ e8), a.
  split; [apply visible_from; auto|]. split; auto. split; auto. subst. cbn. rewrite <- !app_assoc. auto.
Qed.

(** Positions: inserted where the clause stands, the other messages unchanged *)
Lemma group_rule : forall ord exprs all dis don from_ where_ having order limit offset semi args zs rollup each es,
  validate_top ord (NSelect exprs all dis don from_ where_ None having order limit offset semi) = Ok es ->
  Forall2 (fun e z => wraps e (NInt z)) args zs ->
  exists a b, es = a ++ b /\
  validate_top ord (NSelect exprs all dis don from_ where_ (Some (args, rollup, each)) having order limit offset semi)
  = Ok (a ++ map (fun z => "GROUP BY position " ++ str_of_Z z ++ " is not in select list")
          (filter (bad_position (length exprs)) zs) ++ b).
Proof.
  intros * H F. unfold validate_top in *. parts H. cbn in H4. injection H4 as <-. subst es.
  exists (e1 ++ e2 ++ e3), (e5 ++ e6 ++ e7 ++ e8). split; [rewrite <- !app_assoc; auto|].
  erewrite select_build; eauto.
  2:{ cbn. unfold rconcat.
      assert (rmap (group_arg_errors K exprs) args
              = Ok (map (fun z => if bad_position (length exprs) z then [group_pos_msg z] else []) zs)) as ->.
      { apply rmap_Ok. induction F; constructor; auto. apply group_pos; auto. }
      reflexivity. }
  rewrite concat_filter, <- !app_assoc. reflexivity.
Qed.
Lemma order_rule : forall ord exprs all dis don from_ where_ group having limit offset semi items zs es,
  validate_top ord (NSelect exprs all dis don from_ where_ group having None limit offset semi) = Ok es ->
  Forall2 (fun i z => exists e a d, i = NOrderItem e a d /\ wraps e (NInt z)) items zs ->
  exists a b, es = a ++ b /\
  validate_top ord (NSelect exprs all dis don from_ where_ group having (Some items) limit offset semi)
  = Ok (a ++ map (fun z => "ORDER BY position " ++ str_of_Z z ++ " is not in select list")
          (filter (bad_position (length exprs)) zs) ++ b).
Proof.
  intros * H F. unfold validate_top in *. parts H. cbn in H6. injection H6 as <-. subst es.
  exists (e1 ++ e2 ++ e3 ++ e4 ++ e5), (e7 ++ e8). split; [rewrite <- !app_assoc; auto|].
  erewrite select_build; eauto.
  2:{ cbn. unfold rconcat.
      match goal with |- context [rmap ?f items] =>
      assert (rmap f items
              = Ok (map (fun z => if bad_position (length exprs) z then [order_pos_msg z] else []) zs)) as -> end.
      { apply rmap_Ok. induction F as [|i z l1 l2 (e & a & d & -> & W)]; constructor; auto. apply order_pos; auto. }
      reflexivity. }
  rewrite concat_filter, <- !app_assoc. reflexivity.
Qed.
(** A bad position among any other arguments is reported. *)
Lemma group_reported : forall ord exprs all dis don from_ where_ having order limit offset semi args rollup each es arg z,
  validate_top ord (NSelect exprs all dis don from_ where_ (Some (args, rollup, each)) having order limit offset semi) = Ok es ->
  In arg args -> wraps arg (NInt z) -> bad_position (length exprs) z = true ->
  In ("GROUP BY position " ++ str_of_Z z ++ " is not in select list") es.
Proof.
  intros * H I W B. unfold validate_top in *. parts H. subst es. cbn in H4.
  rewrite !in_app_iff. do 3 right. left.
  eapply rconcat_In; eauto. apply group_pos with (K := K) (exprs := exprs) in W. rewrite B in W. exact W.
  left. reflexivity.
Qed.
Lemma order_reported : forall ord exprs all dis don from_ where_ group having limit offset semi items es e asc desc z,
  validate_top ord (NSelect exprs all dis don from_ where_ group having (Some items) limit offset semi) = Ok es ->
  In (NOrderItem e asc desc) items -> wraps e (NInt z) -> bad_position (length exprs) z = true ->
  In ("ORDER BY position " ++ str_of_Z z ++ " is not in select list") es.
Proof.
  intros * H I W B. unfold validate_top in *. parts H. subst es. cbn in H6.
  rewrite !in_app_iff. do 5 right. left.
  eapply rconcat_In; eauto. cbn.
  apply order_pos with (n := length exprs) (rest := validate ord K e) in W. rewrite B in W. exact W.
  left. reflexivity.
Qed.

(** LIMIT and OFFSET *)
Lemma limit_rule : forall ord exprs all dis don from_ where_ group having order e offset semi es es',
  validate_top ord (NSelect exprs all dis don from_ where_ group having order None offset semi) = Ok es ->
  validate_top ord (NSelect exprs all dis don from_ where_ group having order (Some (false, Some e)) offset semi) = Ok es' ->
  exists a b new, es = a ++ b /\ es' = a ++ new ++ b /\
  ((new = [] /\ exists z, wraps e (NInt z) /\ (0 <= z)%Z)
  \/ (new = ["LIMIT must not be negative"] /\ exists z, wraps e (NInt z) /\ (z < 0)%Z)
  \/ (new = ["argument of LIMIT must not contain variables"] /\ forall z, ~ wraps e (NInt z))).
Proof.
  intros * A B. unfold validate_top in *. parts A. parts B. same.
  cbn in H7, H16. injection H7 as <-.
  match type of H16 with _ = Ok ?x => exists (e1 ++ e2 ++ e3 ++ e4 ++ e5 ++ e6), e8, x end. subst. rewrite <- !app_assoc. split; auto. split; auto.
  apply count_errors_inv in H16 as [(z & W & ->) | (-> & N)].
  - destruct (Z.ltb_spec z 0).
    + right; left. eauto.
    + left. eauto.
  - right; right. auto.
Qed.
Lemma offset_rule : forall ord exprs all dis don from_ where_ group having order limit e semi es,
  validate_top ord (NSelect exprs all dis don from_ where_ group having order limit None semi) = Ok es ->
  forall es', validate_top ord (NSelect exprs all dis don from_ where_ group having order limit (Some e) semi) = Ok es' ->
  (es' = es /\ exists z, wraps e (NInt z) /\ (0 <= z)%Z)
  \/ (es' = es ++ ["OFFSET must not be negative"] /\ exists z, wraps e (NInt z) /\ (z < 0)%Z)
  \/ (es' = es ++ ["argument of OFFSET must be integer"] /\ forall z, ~ wraps e (NInt z)).
Proof.
  intros * A es' B. rewrite (offset_split _ _ _ _ _ _ _ _ _ _ _ _ _ _ A) in B. inv_bind B. injection B as <-.
  apply count_errors_inv in Hb as [(z & W & ->) | (-> & N)].
  - destruct (Z.ltb_spec z 0).
    + right; left. eauto.
    + left. rewrite app_nil_r. eauto.
  - right; right. auto.
Qed.

(** Joins *)
Lemma join_reported : forall ord exprs all dis don ty l r on_ using_ where_ group having order limit offset semi es,
  validate_top ord (NSelect exprs all dis don (Some (NJoin ty l r on_ using_)) where_ group having order limit offset semi) = Ok es ->
  ty <> "CROSS JOIN" -> ty <> "," -> on_ = None -> using_ = None -> In "Missing ON or USING for join" es.
Proof.
  intros * H N1 N2 -> ->. unfold validate_top in *. parts H. subst es. cbn [ropt] in H2.
  rewrite join_errors in H2. injection H2 as <-.
  rewrite !in_app_iff. right; left. rewrite <- str_eqb_neq in N1, N2. unfold mem. cbn [existsb].
  rewrite N1, N2. left. reflexivity.
Qed.
Lemma mem_In_iff : forall x l, mem x l = true <-> In x l.
Proof. intros. apply mem_In. Qed.

Lemma order_independent : forall o1 o2 n, is_order o1 -> is_order o2 -> one_type_per_name n ->
  validate_top o1 n = validate_top o2 n.
Proof.
  intros o1 o2 n P1 P2 [T H]. destruct n; auto. unfold validate_top.
  eapply validate_order with (T := T); auto.
  intros x t [].
Qed.

(** Witnesses *)
Lemma nested_join :
  (exists n, parse_sql "select a from t join s join w on a = b" = Ok n
     /\ occurs (NJoin "JOIN" (NTable (NColumn "s") false) (NTable (NColumn "w") false) None None) n)
  /\ errors_of (fun x => x) "select a from t join s join w on a = b" = Ok [].
Proof.
  split; [|vm_compute; reflexivity]. eexists. split; [vm_compute; reflexivity|].
  eapply inside_occurs. eapply inside_child2; cbn; [right; left; reflexivity | cbn; auto].
Qed.
Lemma order_matters : exists o1 o2 sql, is_order o1 /\ is_order o2 /\
  errors_of o1 sql = Ok []
  /\ errors_of o2 sql = Ok ["The argument of WHERE must be type boolean, not type int"].
Proof.
  exists (fun x => x), (@rev field), "select * from (select true as x, 1 as x) where x".
  split; [intros s; apply Permutation_refl|].
  split; [intros s; apply Permutation_sym, Permutation_rev|]. vm_compute. auto.
Qed.
Lemma occurs_dec_list : forall n m, occurs m n -> m = n \/ exists c, In c (children n) /\ occurs m c.
Proof. intros n m H. inversion H; subst; eauto. Qed.
Lemma one_type_example : exists n,
  parse_sql "select * from (select true as x, 1 as y from t) where x and y" = Ok n
  /\ one_type_per_name n.
Proof.
  eexists. split; [vm_compute; reflexivity|].
  exists (fun x => if str_eqb x "x" then Some TBool else if str_eqb x "y" then Some TInt else Some TObject).
  intros s f fs x t O F K I.
  repeat (apply occurs_dec_list in O as [->|(c & I' & O)]; [
    cbn in F; try discriminate; injection F as <-; vm_compute in K; injection K as <-; cbn in I;
    repeat (destruct I as [[= <- <-]|I]; [reflexivity|]); contradiction
  | cbn in I'; repeat (destruct I' as [<-|I']; [|]); try contradiction ]).
Qed.
