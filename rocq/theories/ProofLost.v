(** C68: the names reported as not found are exactly those that the scopes do not have. *)
From Verif Require Import PyStr Lib Ast AstLib Render Validate Api Grammar SpecVal SpecScope SpecReport SpecNested SpecAnswer SpecStuck SpecTables SpecNamed SpecSays SpecLost SpecDerived
  ProofVal ProofVal2 ProofRaise2 ProofScope ProofReport ProofNested ProofAnswer ProofStuck ProofNamed ProofSays.
Local Open Scope str_scope.
Local Open Scope list_scope.

Lemma full_enc : forall x, in_full x = enc x.
Proof. intros [[a|] v]; reflexivity. Qed.
Lemma written_named : forall S K v, rep S K -> (not_written v S <-> fnamed v K = false).
Proof.
  intros S K v R. split.
  - intros H. destruct (fnamed v K) eqn:F; auto. destruct (rep_named_inv _ _ _ R F) as (x & I & E). destruct (H x I). rewrite full_enc. exact E.
  - intros F x I E. rewrite full_enc in E. pose proof (rep_named _ _ _ R I) as X. rewrite E in X. congruence.
Qed.
Lemma enc_star : forall x, enc x = "*" -> x = (None, "*").
Proof. intros x E. apply enc_plain; [reflexivity|exact E]. Qed.
Lemma open_star : forall S K, rep S K -> (~ open_scope S <-> fnamed "*" K = false).
Proof.
  intros S K R. rewrite <- (written_named S K "*" R). split.
  - intros H x I E. rewrite full_enc in E. apply enc_star in E. subst x. exact (H I).
  - intros H I. exact (H _ I eq_refl).
Qed.
Lemma absent_spec : forall S K v, rep S K -> (absent v S <-> fnamed v K = false /\ fmatching v K = []).
Proof.
  intros S K v R. unfold absent. rewrite (written_named S K v R). split; intros [A B]; split; auto.
  - destruct (fmatching v K) as [|f l] eqn:E; auto. destruct (matching_in S K v f R) as [o I]; [rewrite E; left; auto|]. destruct (B o I).
  - intros o I. destruct (matching_has S K o v R I) as [t X]. rewrite B in X. exact X.
Qed.
Lemma no_alias : forall v exprs, (forall e w, ~ In (NAlias e (inl v) w) exprs) <-> mem v (string_aliases exprs) = false.
Proof.
  intros v exprs. split.
  - intros H. apply mem_false. intros I. unfold string_aliases in I. apply in_flat_map in I as (x & Ix & I). destruct x; try contradiction. destruct alias; try contradiction. destruct I as [->|[]]. eapply H, Ix.
  - intros M e w I. apply aliases_In in I. congruence.
Qed.

Lemma bool_not_lost : forall ord who e K es m, bool_errors ord who e K = Ok es -> In m es -> ~ name_error m.
Proof. intros ord who e K es m H I. apply bool_errors_spec in H as (t & _ & ->). intros L. destruct (_ || _) in I; [contradiction|]. destruct I as [<-|[]]. inversion L. Qed.

(** what GROUP BY says of one argument *)
Lemma group_any : forall S K exprs e es m, rep S K -> group_arg_errors K exprs e = Ok es -> In m es ->
  (exists z, wraps e (NInt z) /\ bad_position (length exprs) z = true /\ m = "GROUP BY position " ++ str_of_Z z ++ " is not in select list") \/
  exists v, group_named v e /\ m = "column """ ++ v ++ """ does not exist" /\ ~ open_scope S /\ absent v S /\ forall x w, ~ In (NAlias x (inl v) w) exprs.
Proof.
  intros S K exprs e es m R H I. unfold group_arg_errors in H. inv_bind H. apply unparen_wraps in Hb.
  assert (BN : forall u, group_named u e -> (if negb (fnamed u K) && negb (mem u (string_aliases exprs)) && negb (fnamed "*" K)
    then match fmatching u K with [] => Ok ["column """ ++ u ++ """ does not exist"] | [_] => Ok [] | _ => Err AttributeError end else Ok []) = Ok es ->
    exists v, group_named v e /\ m = "column """ ++ v ++ """ does not exist" /\ ~ open_scope S /\ absent v S /\ forall x w, ~ In (NAlias x (inl v) w) exprs).
  { intros u G X. exists u. split; auto. destruct (fnamed u K) eqn:F1; [injection X as <-; contradiction|]. destruct (mem u _) eqn:F2; [injection X as <-; contradiction|].
    destruct (fnamed "*" K) eqn:F3; [injection X as <-; contradiction|]. cbn [negb andb] in X. destruct (fmatching u K) as [|? []] eqn:M; try discriminate; injection X as <-; [|contradiction].
    destruct I as [<-|[]]. split; auto. split; [apply (open_star S K R); auto|]. split; [apply (absent_spec S K u R); auto|]. apply no_alias. auto. }
  destruct a; try (injection H as <-; contradiction).
  - right. apply (BN v); auto. left. auto.
  - right. apply (BN v); auto. right. eauto.
  - left. destruct (_ || _) eqn:B in H; injection H as <-; [|contradiction]. destruct I as [<-|[]]. exists z. split; [exact Hb|]. split; [rewrite bad_position_spec; exact B|reflexivity].
Qed.

Lemma ambiguous_not_lost : forall v, ~ lost_message ("column """ ++ v ++ """ is ambiguous").
Proof.
  intros v L. remember ("column """ ++ v ++ """ is ambiguous") as m eqn:E. destruct L; try discriminate E.
  apply (f_equal (@rev N)) in E. rewrite !rev_app_distr in E. discriminate E.
Qed.

Ltac here_ := match goal with |- exists x S', seen x S' ?S ?n /\ _ => exists n, S; split; [constructor|] end.
Ltac notlost := exfalso; match goal with L : name_error ?m |- _ => let m' := fresh in let E := fresh in remember m as m' eqn:E in L; destruct L; discriminate E end.

(** where a message comes from *)
Inductive names (ord : fields -> fields) (m : str) (x : node) (S : scope) : Prop :=
| nm_loses : loses m x S -> names ord m x S
| nm_ambiguous : forall v K f g l, x = NColumn v -> m = "column """ ++ v ++ """ is ambiguous" -> rep S K -> v <> "*" -> ~ open_scope S -> not_written v S ->
    fmatching v K = f :: g :: l -> names ord m x S
| nm_clause : clause_message m -> origin m x -> names ord m x S
| nm_test : forall who e S' K es, tests e who x -> scope_of x S S' -> rep S' K -> bool_errors ord who e K = Ok es -> In m es -> names ord m x S.

Lemma any_source : forall n ord S K es m, rep S K -> provided n ->
  validate ord K n = Ok es -> In m es -> exists x S', seen x S' S n /\ names ord m x S'.
Proof.
  intros n. induction n as [n IH] using node_inside_ind. intros ord S K es m R SC H I.
  assert (IHp : forall c es, inside c n -> part c n -> validate ord K c = Ok es -> In m es -> exists x S', seen x S' S n /\ names ord m x S').
  { intros c es' Hc Hp H' I'. destruct (IH c Hc ord S K es' m R) as (x & S' & O & X); auto; [intros s f A B; eapply SC; [|exact B]; eapply lk_part; eauto|].
    exists x, S'. split; auto. eapply sn_part; eauto. }
  assert (IHv : forall c Sf K' es, inside c n -> validated_in c n -> from_scope (from_of n) Sf -> rep (S ++ Sf) K' -> validate ord K' c = Ok es -> In m es -> exists x S', seen x S' S n /\ names ord m x S').
  { intros c Sf K' es' Hc Hp Hf R' H' I'. destruct (IH c Hc ord (S ++ Sf) K' es' m R') as (x & S' & O & X); auto; [intros s f A B; eapply SC; [|exact B]; eapply lk_clause; eauto|].
    exists x, S'. split; auto. destruct (from_of n) as [f|] eqn:F; cbn [from_scope] in Hf; [eapply sn_query; eauto|]. subst Sf. rewrite app_nil_r in O. eapply sn_alone; eauto. }
  assert (IHf : forall c es, inside c n -> from_of n = Some c -> validate ord [] c = Ok es -> In m es -> exists x S', seen x S' S n /\ names ord m x S').
  { intros c es' Hc Hp H' I'. destruct (IH c Hc ord [] [] es' m rep_nil) as (x & S' & O & X); auto; [intros s f A B; eapply SC; [|exact B]; eapply lk_from; eauto|].
    exists x, S'. split; auto. eapply sn_from; eauto. }
  assert (IHl : forall l es, (forall c, In c l -> inside c n) -> (forall c, In c l -> part c n) ->
                rconcat (validate ord K) l = Ok es -> In m es -> exists x S', seen x S' S n /\ names ord m x S').
  { intros l es' Hl Hq Hr Hm. eapply rconcat_In_inv in Hr as (x & ex & Hx & He & Hi); eauto. }
  clear IH.
  destruct n; try (cbn in H; injection H as <-; contradiction).
  - apply select_parts in H as (K' & e1 & e2 & e3 & e4 & e5 & e6 & e7 & e8 & H0 & H1 & H2 & H3 & H4 & H5 & H6 & H7 & H8 & ->).
    assert (V : exists Sf, from_scope from_ Sf /\ rep (S ++ Sf) K').
    { destruct from_ as [f|]; [|injection H0 as <-; exists []; rewrite app_nil_r; split; [reflexivity|exact R]].
      destruct (SC _ f (lk_here _) eq_refl) as [Sf Pf]. destruct (provides_ok _ _ Pf) as (Kf & Ef & Rf). unfold visible in H0. rewrite Ef in H0. injection H0 as <-.
      exists Sf. split; [exact Pf|]. apply rep_union; auto. }
    destruct V as (Sf & Hf & R').
    in_app I.
    + eapply rconcat_In_inv in H1 as (x & ex & Hx & He & Hi); eauto. (eapply IHv; [| |exact Hf|exact R'|exact He|exact Hi]; [child|apply vi_list; auto]).
    + destruct from_ as [f|]; [|injection H2 as <-; contradiction]. cbn in H2.
      (eapply IHf; [| |exact H2|exact I]; [child|reflexivity]).
    + destruct where_ as [x|]; [|injection H3 as <-; contradiction]. cbn in H3.
      inv_bind H3. inv_bind H3. injection H3 as <-. in_app I.
      * (eapply IHv; [| |exact Hf|exact R'|exact Hb|exact I]; [child|apply vi_where]).
      * here_. eapply nm_test; [apply ts_where|exists Sf; split; [exact Hf|reflexivity]|exact R'|exact Hb0|exact I].
    + destruct group as [[[args ru] ea]|]; [|injection H4 as <-; contradiction]. cbn in H4.
      eapply rconcat_In_inv in H4 as (x & ex & Hx & He & Hi); eauto. here_.
      destruct (group_any _ _ _ _ _ _ R' He Hi) as [(z & W & B & ->)|(v & G & -> & O & A & NA)]; [apply nm_clause; [constructor|econstructor; eauto]|apply nm_loses]. eapply ls_group; [|exact Hf|exact O|exact A|exact NA].
      repeat eexists; [exact Hx|exact G].
    + destruct having as [x|]; [|injection H5 as <-; contradiction]. cbn in H5.
      inv_bind H5. inv_bind H5. injection H5 as <-. in_app I.
      * (eapply IHv; [| |exact Hf|exact R'|exact Hb|exact I]; [child|apply vi_having]).
      * here_. eapply nm_test; [apply ts_having|exists Sf; split; [exact Hf|reflexivity]|exact R'|exact Hb0|exact I].
    + destruct order as [l|]; [|injection H6 as <-; contradiction]. cbn in H6.
      eapply rconcat_In_inv in H6 as (x & ex & Hx & He & Hi); eauto.
      destruct x; try discriminate. eapply order_origin' in He as [(es' & H' & I' & N)|(z & W & Em & B)]; eauto.
      * (eapply IHv; [| |exact Hf|exact R'|exact H'|exact I']; [child2 (NOrderItem x asc desc)|eapply vi_order; eauto]).
      * here_. subst m. apply nm_clause; [constructor|econstructor; eauto].
    + destruct limit as [[b [x|]]|]; [|discriminate|injection H7 as <-; contradiction].
      cbn in H7. apply count_errors_inv in H7 as [(z & W & ->) | (-> & N)].
      * destruct (Z.ltb_spec z 0); [destruct I as [<-|[]]|contradiction]. here_. apply nm_clause; [constructor|econstructor; eauto].
      * destruct I as [<-|[]]. here_. apply nm_clause; [constructor|constructor; auto].
    + destruct offset as [x|]; [|injection H8 as <-; contradiction].
      cbn in H8. apply count_errors_inv in H8 as [(z & W & ->) | (-> & N)].
      * destruct (Z.ltb_spec z 0); [destruct I as [<-|[]]|contradiction]. here_. apply nm_clause; [constructor|econstructor; eauto].
      * destruct I as [<-|[]]. here_. apply nm_clause; [constructor|constructor; auto].
  - cbn in H. (eapply IHl; [| |exact H|exact I]; [intros; child|intros; constructor; auto]).
  - cbn in H. inv_bind H. discriminate.
  - cbn in H. (eapply IHl; [| |exact H|exact I]; [intros; child|intros; constructor; auto]).
  - cbn in H. (eapply IHp; [| |exact H|exact I]; [child|constructor]).
  - cbn in H. inv_bind H. inv_bind H. injection H as <-. in_app I; [(eapply IHp; [| |exact Hb|exact I]; [child|apply pt_filter_f])|(eapply IHp; [| |exact Hb0|exact I]; [child|apply pt_filter_c])].
  - cbn in H. inv_bind H. inv_bind H. inv_bind H. injection H as <-. in_app I.
    + (eapply IHp; [| |exact Hb|exact I]; [child|apply pt_over_f]).
    + destruct partition as [l|]; [|injection Hb0 as <-; contradiction]. cbn in Hb0.
      (eapply IHl; [| |exact Hb0|exact I]; [intros; child|intros; apply pt_over_p; auto]).
    + destruct order as [l|]; [|injection Hb1 as <-; contradiction]. cbn in Hb1.
      eapply rconcat_In_inv in Hb1 as (x & ex & Hx & He & Hi); eauto.
      destruct x; try discriminate. eapply order_origin' in He as [(es' & H' & I' & N)|(z & W & Em & B)]; eauto.
      * (eapply IHp; [| |exact H'|exact I']; [child2 (NOrderItem x asc desc)|eapply pt_over_o; eauto]).
      * here_. subst m. apply nm_clause; [constructor|econstructor; eauto].
  - cbn in H. unfold column_errors in H. here_. destruct (fnamed v K) eqn:F1; [injection H as <-; contradiction|]. destruct (str_eqb v "*") eqn:F2; [injection H as <-; contradiction|].
    destruct (fnamed "*" K) eqn:F3; [injection H as <-; contradiction|]. cbn [negb andb] in H. destruct (fmatching v K) as [|? []] eqn:M; injection H as <-; try contradiction; destruct I as [<-|[]].
    + apply nm_loses, ls_column; [apply str_eqb_neq; auto|apply (open_star S K R); auto|apply (absent_spec S K v R); auto].
    + eapply nm_ambiguous; [reflexivity|reflexivity|exact R|apply str_eqb_neq; auto|apply (open_star S K R); auto|apply (written_named S K v R); auto|exact M].
  - cbn in H. unfold chained_errors in H. inv_bind H. inv_bind H. here_.
    match type of H with (if ?b then _ else _) = _ => destruct b eqn:B end; [|injection H as <-; contradiction].
    inv_bind H. injection H as <-. destruct I as [<-|[]]. apply andb_true_iff in B as [B B3]. apply andb_true_iff in B as [B1 B2]. apply negb_true_iff in B1, B2, B3.
    apply nm_loses. eapply ls_dotted; eauto; [apply (open_star S K R); auto|apply (written_named S K _ R); auto|apply (written_named S K _ R); auto].
  - cbn in H. (eapply IHl; [| |exact H|exact I]; [intros; child|intros; constructor; auto]).
  - cbn in H. (eapply IHp; [| |exact H|exact I]; [child|constructor]).
  - rewrite join_errors in H. injection H as <-.
    match type of I with In _ (if ?b then _ else _) => destruct b eqn:E end; [contradiction|].
    destruct on_, using_; try contradiction. destruct I as [<-|[]]. rewrite !orb_false_iff in E. destruct E as (E1 & E2 & _). here_. apply nm_clause; [constructor|constructor; intros ->; discriminate].
  - cbn in H. inv_bind H. inv_bind H. injection H as <-. in_app I.
    + (eapply IHp; [| |exact Hb|exact I]; [child|apply pt_cond_l]).
    + destruct (str_eqb (lower pred) "between") eqn:B.
      * apply str_eqb_eq in B. destruct n2; try discriminate. inv_bind Hb0. inv_bind Hb0. injection Hb0 as <-.
        in_app I; [(eapply IHp; [| |exact Hb1|exact I]; [child2 (NBoolC ty n2_1 n2_2)|apply pt_between_l; auto])|(eapply IHp; [| |exact Hb2|exact I]; [child2 (NBoolC ty n2_1 n2_2)|apply pt_between_r; auto])].
      * apply str_eqb_neq in B. (eapply IHp; [| |exact Hb0|exact I]; [child|apply pt_cond_r; auto]).
  - cbn in H. do 4 inv_bind H. injection H as <-. in_app I.
    + (eapply IHp; [| |exact Hb|exact I]; [child|apply pt_bool_l]).
    + here_. eapply nm_test; [apply ts_left|reflexivity|exact R|exact Hb0|exact I].
    + (eapply IHp; [| |exact Hb1|exact I]; [child|apply pt_bool_r]).
    + here_. eapply nm_test; [apply ts_right|reflexivity|exact R|exact Hb2|exact I].
  - cbn in H. eapply rconcat_In_inv in H as (x & ex & Hx & He & Hi); eauto.
    destruct x; try discriminate. destruct alias; try discriminate.
    (eapply IHp; [| |exact He|exact Hi]; [child2 (NAlias x (inr n0) with_as)|eapply pt_replace; eauto]).
Qed.

Lemma name_source : forall n ord S K es m, rep S K -> provided n -> name_error m ->
  validate ord K n = Ok es -> In m es -> exists x S', seen x S' S n /\ names ord m x S'.
Proof. intros n ord S K es m R P _ V I. eapply any_source; eauto. Qed.
Lemma lost_name : forall m, lost_message m -> name_error m.
Proof. intros m []; constructor. Qed.
Lemma lost_source : forall n ord S K es m, rep S K -> provided n -> lost_message m ->
  validate ord K n = Ok es -> In m es -> exists x S', seen x S' S n /\ loses m x S'.
Proof.
  intros n ord S K es m R P L V I. destruct (name_source n ord S K es m R P (lost_name m L) V I) as (x & S' & Hs & [X|v K' f g l _ -> _ _ _ _ _|C _|who e S1 K1 es1 T _ _ B Ib]); eauto.
  - destruct (ambiguous_not_lost _ L).
  - destruct (proj1 (clause_not _ C) (lost_name _ L)).
  - destruct (bool_not_lost _ _ _ _ _ _ B Ib (lost_name _ L)).
Qed.
Lemma lost_reported : forall m x S ord K es, loses m x S -> rep S K -> validate ord K x = Ok es -> In m es.
Proof.
  intros m x S ord K es H R V. destruct H.
  - cbn [validate] in V. unfold column_errors in V. apply (absent_spec S K v R) in H1 as [A1 A2]. apply (open_star S K R) in H0. rewrite A1, A2, H0 in V. apply str_eqb_neq in H. rewrite H in V. injection V as <-. left. auto.
  - cbn [validate] in V. unfold chained_errors in V. rewrite H, H0 in V. cbn [rbind] in V. cbv zeta in V.
    apply (written_named S K _ R) in H3. apply (written_named S K _ R) in H4. apply (open_star S K R) in H2. rewrite H2, H3, H4, H1 in V. injection V as <-. left. auto.
  - apply select_parts in V as (K' & e1 & e2 & e3 & e4 & e5 & e6 & e7 & e8 & G0 & G1 & G2 & G3 & G4 & G5 & G6 & G7 & G8 & ->).
    assert (R' : rep (S ++ Sf) K').
    { destruct f as [f|]; cbn [from_scope] in H0; [|subst Sf; injection G0 as <-; rewrite app_nil_r; exact R].
      destruct (provides_ok _ _ H0) as (Kf & Ef & Rf). unfold visible in G0. rewrite Ef in G0. injection G0 as <-. apply rep_union; auto. }
    destruct H as (? & ? & ? & ? & ? & ? & args & ru & ea & ? & ? & ? & ? & ? & e & Eq & He & W). injection Eq as -> -> -> -> -> -> -> -> -> -> -> ->.
    cbn [ropt fst] in G4. destruct (rconcat_each _ _ _ _ G4 He) as [ex Ex].
    assert (X : In ("column """ ++ v ++ """ does not exist") ex).
    { apply (absent_spec (S ++ Sf) K' v R') in H2 as [A1 A2]. apply (open_star (S ++ Sf) K' R') in H1. apply no_alias in H3.
      unfold group_arg_errors in Ex. destruct W as [W|(q & p & W)]; rewrite (wraps_unparen _ _ W) in Ex; cbn [unparen rbind] in Ex; rewrite A1, A2, H1, H3 in Ex; injection Ex as <-; left; auto. }
    do 3 (apply in_or_app; right). apply in_or_app. left. eapply rconcat_In; [exact G4|exact He|exact Ex|exact X].
Qed.

Lemma lost_exact : forall ord n es m, provided n -> validate_top ord n = Ok es -> lost_message m ->
  (In m es <-> exists x S, seen x S [] n /\ loses m x S).
Proof.
  intros ord n es m SC V L. split.
  - intros I. assert (V' : validate ord [] n = Ok es) by (destruct n; try discriminate V; exact V). eapply lost_source; eauto. exact rep_nil.
  - intros (x & S & H & X). destruct (top_seen _ _ _ _ _ H V) as (K & es' & R & E & I). apply I. eapply lost_reported; eauto.
Qed.

(** ** Ambiguous columns *)
Lemma loses_lost : forall m x S, loses m x S -> lost_message m.
Proof. intros m x S []; constructor. Qed.
Lemma first_of_two : forall (L : list ((option str * str) * option ty)) x t u, In (x, t) L -> In (x, u) L -> t <> u ->
  exists A B, map fst L = A ++ x :: B /\ In x B.
Proof.
  induction L as [|p L IH]; intros x t u I1 I2 D; [contradiction|]. destruct I1 as [->|I1], I2 as [E|I2].
  - injection E as E. contradiction.
  - exists [], (map fst L). split; auto. apply (in_map fst) in I2. exact I2.
  - subst p. exists [], (map fst L). split; auto. apply (in_map fst) in I1. exact I1.
  - destruct (IH x t u I1 I2 D) as (A & B & E & I). exists (fst p :: A), B. split; auto. cbn. rewrite E. reflexivity.
Qed.
Lemma two_ambiguous : forall S K v f g l, rep S K -> v <> "*" -> ~ open_scope S -> not_written v S -> once v S -> fmatching v K = f :: g :: l -> ambiguous v S.
Proof.
  intros S K v f g l (N & P & L & <- & H) NS O W On M.
  assert (ND : f <> g). { intros E. assert (X : NoDup (fmatching v K)) by (apply NoDup_filter; exact N). rewrite M, E in X. inversion X as [|? ? Y _]. apply Y. left. auto. }
  assert (X : forall h, In h (fmatching v K) -> exists o t, In ((o, v), t) L /\ h = encp ((o, v), t)).
  { intros h I. apply filter_In in I as [I U]. apply str_eqb_eq in U. apply H in I. apply in_map_iff in I as ([[o w] t] & <- & I). unfold encp in U. cbn [fst] in U.
    rewrite unqualified_enc in U by (apply P; apply (in_map fst) in I; exact I). cbn [snd] in U. subst w. eauto. }
  destruct (X f) as (o1 & t1 & I1 & E1); [rewrite M; left; auto|]. destruct (X g) as (o2 & t2 & I2 & E2); [rewrite M; right; left; auto|].
  assert (Q1 := in_map fst _ _ I1). assert (Q2 := in_map fst _ _ I2). cbn [fst] in Q1, Q2.
  destruct o1 as [a|]; [|destruct (W _ Q1); reflexivity]. destruct o2 as [b|]; [|destruct (W _ Q2); reflexivity].
  assert (D : a <> b).
  { intros <-. destruct (first_of_two L (Some a, v) t1 t2 I1 I2) as (A & B & E & I); [congruence|]. exact (On A B (Some a) E I). }
  split; [exact NS|]. split; [|exists a, b; auto]. intros w I. split; intros ->; [exact (W _ I eq_refl)|exact (O I)].
Qed.
Lemma ambiguous_exact : forall ord n es v, provided n -> validate_top ord n = Ok es -> (forall S, seen (NColumn v) S [] n -> once v S) ->
  (In ("column """ ++ v ++ """ is ambiguous") es <-> exists S, seen (NColumn v) S [] n /\ ambiguous v S).
Proof.
  intros ord n es v SC V On. split.
  - intros I. assert (V' : validate ord [] n = Ok es) by (destruct n; try discriminate V; exact V).
    destruct (name_source n ord [] [] es _ rep_nil SC (ne_ambiguous v) V' I) as (x & S & Hs & [X|w K f g l -> E R NS O W M|C _|who e S1 K1 es1 T _ _ B Ib]).
    + apply loses_lost in X. destruct (ambiguous_not_lost _ X).
    + apply app_inv_head in E. apply app_inv_tail in E. subst w. exists S. split; auto. eapply two_ambiguous; eauto.
    + destruct (proj1 (clause_not _ C) (ne_ambiguous v)).
    + destruct (bool_not_lost _ _ _ _ _ _ B Ib (ne_ambiguous v)).
  - intros (S & H & A). destruct (top_seen _ _ _ _ _ H V) as (K & _ & (_ & P & _) & _). eapply ambiguous_reported; eauto.
    destruct A as (_ & _ & a & b & _ & Ia & _). apply P in Ia. apply Ia.
Qed.

(** ** All messages *)
Lemma resolve_unwritten : forall ord e S K u, is_order ord -> rep S K -> (forall t, render Tr e = Ok t -> not_written t S) -> resolve ord e K = Ok (Some u) -> return_type e = Ok (Some u).
Proof.
  intros ord e S K u P R W H. unfold resolve in H. destruct (is_select e); [discriminate|]. destruct (ord K) as [|f0 l] eqn:E; auto. inv_bind H.
  destruct (filter _ _) as [|f l'] eqn:F; auto. exfalso. assert (I : In f (filter (fun f => str_eqb (fst f) a) (f0 :: l))) by (rewrite F; left; auto).
  apply filter_In in I as [I Q]. apply str_eqb_eq in Q. rewrite <- E in I. specialize (P K). apply (Permutation.Permutation_in _ P) in I.
  assert (N : fnamed a K = true) by (apply fnamed_In; exists (snd f); rewrite <- Q, <- surjective_pairing; exact I).
  apply (written_named S K a R) in W; auto. congruence.
Qed.
Lemma tests_scoped : forall ord who e x S K es, tests e who x -> rep S K -> (forall f, from_of x = Some f -> exists Sf, provides f Sf) -> validate ord K x = Ok es ->
  exists S' K' es', scope_of x S S' /\ rep S' K' /\ bool_errors ord who e K' = Ok es' /\ incl es' es.
Proof.
  intros ord who e x S K es T R HP V.
  assert (SV : forall from_ K1, (forall f, from_ = Some f -> exists Sf, provides f Sf) -> visible K from_ = Ok K1 -> exists Sf, from_scope from_ Sf /\ rep (S ++ Sf) K1).
  { intros from_ K1 HQ Vi. destruct from_ as [f|]; [|injection Vi as <-; exists []; rewrite app_nil_r; split; [reflexivity|exact R]].
    destruct (HQ f eq_refl) as [Sf Pf]. destruct (provides_ok _ _ Pf) as (Kf & Ef & Rf). unfold visible in Vi. rewrite Ef in Vi. injection Vi as <-. exists Sf. split; [exact Pf|]. apply rep_union; auto. }
  destruct T.
  - apply select_parts in V as (K1 & e1 & e2 & e3 & e4 & e5 & e6 & e7 & e8 & H0' & H1' & H2' & H3' & H4' & H5' & H6' & H7' & H8' & ->).
    destruct (SV _ _ HP H0') as (Sf & Hf & R'). cbn [ropt] in H3'. inv_bind H3'. inv_bind H3'. injection H3' as <-. eexists _, K1, _. split; [exists Sf; split; [exact Hf|reflexivity]|]. split; [exact R'|]. split; [eassumption|].
    intros m I. rewrite !in_app_iff. auto.
  - apply select_parts in V as (K1 & e1 & e2 & e3 & e4 & e5 & e6 & e7 & e8 & H0' & H1' & H2' & H3' & H4' & H5' & H6' & H7' & H8' & ->).
    destruct (SV _ _ HP H0') as (Sf & Hf & R'). cbn [ropt] in H5'. inv_bind H5'. inv_bind H5'. injection H5' as <-. eexists _, K1, _. split; [exists Sf; split; [exact Hf|reflexivity]|]. split; [exact R'|]. split; [eassumption|].
    intros m I. rewrite !in_app_iff. auto 10.
  - cbn [validate] in V. do 4 inv_bind V. injection V as <-. eexists S, K, _. split; [reflexivity|]. split; [exact R|]. split; [eassumption|]. intros m I. rewrite !in_app_iff. auto.
  - cbn [validate] in V. do 4 inv_bind V. injection V as <-. eexists S, K, _. split; [reflexivity|]. split; [exact R|]. split; [eassumption|]. intros m I. rewrite !in_app_iff. auto.
Qed.
Lemma all_exact : forall ord n es, is_order ord -> provided n -> plain_tests n -> (forall v S, seen (NColumn v) S [] n -> once v S) -> validate_top ord n = Ok es ->
  forall m, In m es <-> exists x S, seen x S [] n /\ speaks m x S.
Proof.
  intros ord n es P SC PT On V m. split.
  - intros I. assert (V' : validate ord [] n = Ok es) by (destruct n; try discriminate V; exact V).
    destruct (any_source n ord [] [] es m rep_nil SC V' I) as (x & S & Hs & X). exists x, S. split; [exact Hs|].
    destruct X as [X|v K f g l -> -> R NS O W M|C O|who e S1 K1 es1 T Sc R B Ib].
    + apply sk_loses. exact X.
    + apply sk_ambiguous. eapply two_ambiguous; eauto.
    + apply sk_clause; auto.
    + apply bool_errors_spec in B as (u & U & ->). apply (resolve_unwritten ord e S1 K1 u P R) in U; [|intros t Rt; eapply PT; eauto].
      destruct (ty_eqb u TBool || ty_eqb u TObject) eqn:Q; [contradiction|]. destruct Ib as [<-|[]]. apply orb_false_iff in Q as [Q1 Q2].
      destruct (rt_typed e u U) as (y & L & Vt); [intros ->; discriminate Q1|intros ->; discriminate Q2|]. eapply sk_test; eauto.
  - intros (x & S & H & X). destruct (top_seen _ _ _ _ _ H V) as (K & es' & R & E & I). apply I. destruct X.
    + apply clause_not in H0 as [N T]. eapply looked_reported; eauto. constructor.
    + destruct (tests_scoped _ _ _ _ _ _ _ H0 R (fun f => SC x f (seen_looked _ _ _ _ H)) E) as (S' & K' & es2 & Sc & R' & B & I2). apply I2.
      apply bool_errors_spec in B as (u & U & ->). apply (resolve_unwritten ord e S' K' u P R') in U; [|intros t' Rt; eapply PT; eauto].
      destruct (typed_rt _ _ _ H1 H2) as (u' & U' & <- & N1 & N2). rewrite U in U'. injection U' as <-. destruct u; try congruence; left; reflexivity.
    + eapply lost_reported; eauto.
    + assert (Pv : plain v). { destruct R as (_ & Pl & _). destruct H0 as (_ & _ & a & b & _ & Ia & _). apply Pl in Ia. apply Ia. }
      cbn [validate] in E. rewrite (ambiguous_errors S K v R Pv H0) in E. injection E as <-. left. auto.
Qed.
Lemma all_answer : forall ord q n b, is_order ord -> parse_sql q = Ok n -> is_sel n = true -> provided n -> plain_tests n -> (forall v S, seen (NColumn v) S [] n -> once v S) ->
  fst (q_is_valid ord (new_query q)) = Ok b -> (b = true <-> forall m x S, seen x S [] n -> ~ speaks m x S).
Proof.
  intros ord q n b O Pq Sn SC PT On B. destruct (validate_top ord n) as [es|e] eqn:V.
  - pose proof (all_exact ord n es O SC PT On V) as X. rewrite (errors_is_valid q ord es) in B by (unfold errors_of; rewrite Pq; exact V). injection B as <-.
    destruct es as [|m es].
    + split; auto. intros _ m x S H Sp. destruct (proj2 (X m)) as []; eauto.
    + split; [discriminate|]. intros H. destruct (proj1 (X m) (or_introl eq_refl)) as (x & S & Hs & Sp). destruct (H m x S Hs Sp).
  - exfalso. destruct n; try discriminate Sn. cbn [validate_top] in V. match type of V with validate _ _ ?n = _ => pose proof (validate_exn ord n []) as X end. rewrite V in X.
    unfold q_is_valid, q_validate, get_ast, new_query in B. cbn [q_validated q_ast q_sql q_errors] in B. rewrite Pq in B. cbn [rbind validate_top] in B. rewrite V in B.
    cbn in X. destruct e; try discriminate B; cbn in X; intuition discriminate.
Qed.
Lemma settled_answer : forall q n ord, is_order ord -> parse_sql q = Ok n -> is_sel n = true -> statement n = true -> settled_names n ->
  provided n -> plain_tests n -> (forall v S, seen (NColumn v) S [] n -> once v S) ->
  ((exists e, fst (q_is_valid ord (new_query q)) = Err e) <-> exists x, looked x n /\ stuck x)
  /\ (fst (q_is_valid ord (new_query q)) = Ok false <-> (~ exists x, looked x n /\ stuck x) /\ exists m x S, seen x S [] n /\ speaks m x S)
  /\ (fst (q_is_valid ord (new_query q)) = Ok true <-> (~ exists x, looked x n /\ stuck x) /\ ~ exists m x S, seen x S [] n /\ speaks m x S).
Proof.
  intros q n ord O Pq Sn St Se SC PT On. pose proof (raises_exactly q n ord O Pq Sn St Se) as Ra. split; [exact Ra|].
  destruct (fst (q_is_valid ord (new_query q))) as [b|e] eqn:B.
  - assert (N : ~ exists x, looked x n /\ stuck x) by (intros X; apply Ra in X as [e E]; discriminate E).
    assert (Q : b = false <-> exists m x S, seen x S [] n /\ speaks m x S).
    { destruct (validate_top ord n) as [es|e] eqn:V.
      - pose proof (all_exact ord n es O SC PT On V) as X. rewrite (errors_is_valid q ord es) in B by (unfold errors_of; rewrite Pq; exact V). injection B as <-.
        destruct es as [|m es]; split; auto; try discriminate; [intros (m & H); apply X in H; destruct H|]. intros _. exists m. apply X. left. reflexivity.
      - exfalso. destruct n; try discriminate Sn. cbn [validate_top] in V. match type of V with validate _ _ ?n = _ => pose proof (validate_exn ord n []) as X end. rewrite V in X.
        unfold q_is_valid, q_validate, get_ast, new_query in B. cbn [q_validated q_ast q_sql q_errors] in B. rewrite Pq in B. cbn [rbind validate_top] in B. rewrite V in B.
        cbn in X. destruct e; try discriminate B; cbn in X; intuition discriminate. }
    split; split.
    + intros [= ->]. split; [exact N|]. apply Q. reflexivity.
    + intros [_ X]. f_equal. apply Q. exact X.
    + intros [= ->]. split; [exact N|]. intros X. apply Q in X. discriminate X.
    + intros [_ X]. f_equal. destruct b; auto. destruct X. apply Q. reflexivity.
  - assert (Y : exists x, looked x n /\ stuck x) by (apply Ra; eauto). split; split; intros X; try discriminate X; destruct X as [X _]; contradiction.
Qed.

(** ** For examples: the FROM clauses of a statement *)
Definition all_froms (n : node) : list node := flat_map (fun s => match from_of s with Some f => [f] | None => [] end) (all_parts n).
Lemma all_froms_ok : forall n, Forall (fun f => exists S, provides f S) (all_froms n) -> provided n.
Proof.
  intros n H s f L E. rewrite Forall_forall in H. apply H. apply looked_occurs in L. apply parts_ok with (k := size n) in L; auto.
  apply in_flat_map. exists s. split; [exact L|]. rewrite E. left. reflexivity.
Qed.
