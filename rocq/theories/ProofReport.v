(** Names that nothing provides, or two aliases, are reported. *)
From Verif Require Import PyStr Lib Ast AstLib Render RenderEq Validate Api Grammar SpecVal SpecAnswer SpecScope SpecReport ProofVal ProofScope.
Local Open Scope str_scope.
Local Open Scope list_scope.

Lemma part_errors : forall a n ord K es, part a n -> validate ord K n = Ok es -> exists es', validate ord K a = Ok es' /\ incl es' es.
Proof.
  intros a n ord K es P H.
  assert (L : forall args es, In a args -> rconcat (validate ord K) args = Ok es -> exists es', validate ord K a = Ok es' /\ incl es' es).
  { intros args es' I Hr. destruct (rconcat_each _ _ _ _ Hr I) as [ex E]. exists ex. split; auto. intros m M. eapply rconcat_In; eauto. }
  destruct P; cbn in H.
  - eauto.
  - eauto.
  - eauto.
  - exists es. split; auto using incl_refl.
  - exists es. split; auto using incl_refl.
  - inv_bind H. inv_bind H. injection H as <-. eexists. split; [eassumption|]. apply incl_appl, incl_refl.
  - inv_bind H. inv_bind H. injection H as <-. eexists. split; [eassumption|]. apply incl_appr, incl_refl.
  - inv_bind H. inv_bind H. inv_bind H. injection H as <-. eexists. split; [eassumption|]. apply incl_appl, incl_refl.
  - inv_bind H. inv_bind H. inv_bind H. injection H as <-. cbn [ropt] in Hb0. destruct (L _ _ H0 Hb0) as (es' & E & I). exists es'. split; auto. apply incl_appr, incl_appl, I.
  - inv_bind H. inv_bind H. inv_bind H. injection H as <-. cbn [ropt] in Hb1. destruct (rconcat_each _ _ _ _ Hb1 H0) as [ex E]. cbn beta iota in E.
    exists ex. split.
    + unfold order_item_errors in E. inv_bind E. apply unparen_wraps in Hb2. destruct a3; auto. exfalso. eapply H1. exact Hb2.
    + apply incl_appr, incl_appr. intros m M. eapply rconcat_In; [exact Hb1|exact H0|exact E|exact M].
  - inv_bind H. inv_bind H. injection H as <-. eexists. split; [eassumption|]. apply incl_appl, incl_refl.
  - inv_bind H. inv_bind H. injection H as <-. apply str_eqb_neq in H0. rewrite H0 in Hb0. eexists. split; [exact Hb0|]. apply incl_appr, incl_refl.
  - inv_bind H. inv_bind H. injection H as <-. rewrite H0, str_eqb_refl in Hb0. inv_bind Hb0. inv_bind Hb0. injection Hb0 as <-. eexists. split; [eassumption|]. apply incl_appr, incl_appl, incl_refl.
  - inv_bind H. inv_bind H. injection H as <-. rewrite H0, str_eqb_refl in Hb0. inv_bind Hb0. inv_bind Hb0. injection Hb0 as <-. eexists. split; [eassumption|]. apply incl_appr, incl_appr, incl_refl.
  - do 4 inv_bind H. injection H as <-. eexists. split; [eassumption|]. apply incl_appl, incl_refl.
  - do 4 inv_bind H. injection H as <-. eexists. split; [eassumption|]. apply incl_appr, incl_appr, incl_appl, incl_refl.
  - destruct (rconcat_each _ _ _ _ H H0) as [ex E]. cbn beta iota in E. exists ex. split; auto. intros m M. eapply rconcat_In; [exact H|exact H0|exact E|exact M].
Qed.
Lemma validated_errors : forall e n ord K es, validated_in e n -> validate ord K n = Ok es ->
  exists K' es', visible K (from_of n) = Ok K' /\ validate ord K' e = Ok es' /\ incl es' es.
Proof.
  intros e n ord K es V H. destruct V as [? ? ? ? ? ? ? ? ? ? ? ? I| | |? ? ? ? ? ? ? ? ? ? ? ? ? ? I N]; apply select_parts in H as (K' & e1 & e2 & e3 & e4 & e5 & e6 & e7 & e8 & H0 & H1 & H2 & H3 & H4 & H5 & H6 & H7 & H8 & ->); exists K'; cbn [from_of].
  - destruct (rconcat_each _ _ _ _ H1 I) as [ex E]. exists ex. repeat split; auto. apply incl_appl. intros m M. eapply rconcat_In; eauto.
  - cbn [ropt] in H3. inv_bind H3. inv_bind H3. injection H3 as <-. eexists. split; [exact H0|]. split; [eassumption|]. apply incl_appr, incl_appr, incl_appl, incl_appl, incl_refl.
  - cbn [ropt] in H5. inv_bind H5. inv_bind H5. injection H5 as <-. eexists. split; [exact H0|]. split; [eassumption|]. do 4 apply incl_appr. apply incl_appl, incl_appl, incl_refl.
  - cbn [ropt] in H6. destruct (rconcat_each _ _ _ _ H6 I) as [ex E]. cbn beta iota in E. exists ex. split; auto. split.
    + unfold order_item_errors in E. inv_bind E. apply unparen_wraps in Hb. destruct a0; auto. exfalso. eapply N. exact Hb.
    + do 5 apply incl_appr. apply incl_appl. intros m M. eapply rconcat_In; [exact H6|exact I|exact E|exact M].
Qed.
Lemma seen_errors : forall x S' S n, seen x S' S n -> forall ord K es, rep S K -> validate ord K n = Ok es ->
  exists K' es', rep S' K' /\ validate ord K' x = Ok es' /\ incl es' es.
Proof.
  intros x S' S n H. induction H; intros ord K es R V.
  - exists K, es. auto using incl_refl.
  - destruct (part_errors _ _ _ _ _ H V) as (es1 & E1 & I1). destruct (IHseen _ _ _ R E1) as (K' & es' & R' & E' & I'). exists K', es'. split; auto. split; auto. eapply incl_tran; eauto.
  - destruct (validated_errors _ _ _ _ _ H V) as (K1 & es1 & Vi & E1 & I1). rewrite H0 in Vi. injection Vi as <-.
    destruct (IHseen _ _ _ R E1) as (K' & es' & R' & E' & I'). exists K', es'. split; auto. split; auto. eapply incl_tran; eauto.
  - destruct (validated_errors _ _ _ _ _ H V) as (K1 & es1 & Vi & E1 & I1). rewrite H0 in Vi. unfold visible in Vi. destruct (provides_ok _ _ H1) as (Kf & Ef & Rf). rewrite Ef in Vi. injection Vi as <-.
    destruct (IHseen _ _ _ (rep_union _ _ _ _ R Rf) E1) as (K' & es' & R' & E' & I'). exists K', es'. split; auto. split; auto. eapply incl_tran; eauto.
  - destruct n; try discriminate H. cbn [from_of] in H. subst from_.
    apply select_parts in V as (K' & e1 & e2 & e3 & e4 & e5 & e6 & e7 & e8 & G0 & G1 & G2 & G3 & G4 & G5 & G6 & G7 & G8 & ->). cbn [ropt] in G2.
    destruct (IHseen _ _ _ rep_nil G2) as (K2 & es' & R' & E' & I'). exists K2, es'. split; auto. split; auto. apply incl_appr, incl_appl, I'.
Qed.

(** the fields for a scope *)
Lemma rep_named_inv : forall S K n, rep S K -> fnamed n K = true -> exists x, In x S /\ enc x = n.
Proof.
  intros S K n (_ & P & L & <- & H) F. apply fnamed_In in F as (t & I). apply H in I. apply in_map_iff in I as (p & E & I). exists (fst p). split; [apply in_map; auto|]. unfold encp in E. injection E as E _. exact E.
Qed.
Lemma plain_dot : forall a v, ~ plain (a ++ "." ++ v).
Proof. intros a v H. unfold plain in H. assert (X : has 46 (a ++ "." ++ v) = true) by (apply has_In, in_or_app; right; left; auto). congruence. Qed.
Lemma enc_plain : forall x v, plain v -> enc x = v -> x = (None, v).
Proof. intros [[a|] w] v P E; unfold enc in E; cbn [fst snd] in E; subst; auto. exfalso. eapply plain_dot, P. Qed.
Lemma enc_dot : forall x a v, plain_entry x -> plain a -> enc x = a ++ "." ++ v -> x = (Some a, v).
Proof.
  intros [[b|] w] a v (P & Q) PA E; unfold enc in E; cbn [fst snd] in *.
  - assert (X : after_dot (b ++ "." ++ w) = after_dot (a ++ "." ++ v)) by (rewrite E; auto). rewrite !after_dot_app in X by auto. injection X as ->. apply app_inv_tail in E. subst. reflexivity.
  - subst w. exfalso. eapply plain_dot, P.
Qed.
Lemma rep_entry : forall S K x, rep S K -> In x S -> plain_entry x.
Proof. intros S K x (_ & P & _) I. auto. Qed.
Lemma not_named : forall S K v, rep S K -> plain v -> ~ In (None, v) S -> fnamed v K = false.
Proof. intros S K v R P N. destruct (fnamed v K) eqn:E; auto. destruct (rep_named_inv _ _ _ R E) as (x & I & Ex). apply enc_plain in Ex; auto. subst. contradiction. Qed.
Lemma not_dotted : forall S K a v, rep S K -> plain a -> ~ In (Some a, v) S -> fnamed (a ++ "." ++ v) K = false.
Proof. intros S K a v R P N. destruct (fnamed _ K) eqn:E; auto. destruct (rep_named_inv _ _ _ R E) as (x & I & Ex). apply enc_dot in Ex; eauto using rep_entry. subst. contradiction. Qed.
Lemma matching_in : forall S K v f, rep S K -> In f (fmatching v K) -> exists o, In (o, v) S.
Proof.
  intros S K v f (_ & P & L & <- & H) I. apply filter_In in I as [I U]. apply str_eqb_eq in U. apply H in I. apply in_map_iff in I as (p & <- & I). unfold encp in U. cbn [fst] in U.
  rewrite unqualified_enc in U by (apply P, in_map; auto). exists (fst (fst p)). rewrite <- U, <- surjective_pairing. apply in_map. auto.
Qed.
Lemma matching_has : forall S K o v, rep S K -> In (o, v) S -> exists t, In (enc (o, v), t) (fmatching v K).
Proof.
  intros S K o v (_ & P & L & <- & H) I. apply in_map_iff in I as (p & E & I). exists (snd p). apply filter_In. split.
  - apply H. apply in_map_iff. exists p. split; [unfold encp; rewrite E; reflexivity|exact I].
  - cbn [fst]. rewrite unqualified_enc by (rewrite <- E; apply P, in_map; auto). apply str_eqb_refl.
Qed.
Lemma missing_errors : forall S K v, rep S K -> plain v -> missing v S -> column_errors v K = ["The column " ++ v ++ " was not found"].
Proof.
  intros S K v R P (NS & M). apply column_missing. split; [|split; [exact NS|split]].
  - eapply not_named; eauto. intros I. apply M in I as [I _]. auto.
  - eapply not_named; [exact R|reflexivity|]. intros I. apply M in I as [_ I]. exact (I eq_refl eq_refl).
  - destruct (fmatching v K) as [|f r] eqn:E; auto. destruct (matching_in S K v f R) as (o & I); [rewrite E; left; auto|]. apply M in I as [I _]. contradiction.
Qed.
Lemma ambiguous_errors : forall S K v, rep S K -> plain v -> ambiguous v S -> column_errors v K = ["column """ ++ v ++ """ is ambiguous"].
Proof.
  intros S K v R P (NS & M & a & b & D & Ia & Ib). unfold column_errors.
  rewrite (not_named S K v R P) by (intros I; apply M in I as [I _]; auto). rewrite (not_named S K "*" R eq_refl) by (intros I; apply M in I as [_ I]; auto).
  apply str_eqb_neq in NS. rewrite NS. cbn [negb andb].
  destruct (matching_has _ _ _ _ R Ia) as (t & I1). destruct (matching_has _ _ _ _ R Ib) as (u & I2). destruct (fmatching v K) as [|f [|g r]]; [destruct I1| |reflexivity].
  exfalso. destruct I1 as [->|[]]. destruct I2 as [I2|[]]. injection I2 as E _. unfold enc in E. cbn [fst snd] in E. apply app_inv_tail in E. auto.
Qed.
Lemma dotted_errors : forall S K a v, rep S K -> plain a -> ~ In a COLUMN_KEYWORDS -> ~ In v COLUMN_KEYWORDS -> ~ found_in a v S ->
  chained_errors (NColumn a) (NColumn v) K = Ok ["The column " ++ v ++ " was not found in alias " ++ a].
Proof.
  intros S K a v R P Ka Kv N. unfold chained_errors. rewrite !render_NColumn. unfold finish, column_text. apply mem_false in Ka. apply mem_false in Kv. rewrite Ka, Kv. cbn [rbind].
  rewrite (not_dotted S K a v R P) by (intros I; apply N; left; auto). change (a ++ ".*") with (a ++ "." ++ "*"). rewrite (not_dotted S K a "*" R P) by (intros I; apply N; right; left; auto).
  rewrite (not_named S K "*" R eq_refl) by (intros I; apply N; right; right; auto). reflexivity.
Qed.
Lemma top_seen : forall x S n ord es, seen x S [] n -> validate_top ord n = Ok es -> exists K es', rep S K /\ validate ord K x = Ok es' /\ incl es' es.
Proof. intros x S n ord es H V. destruct n; try discriminate V. eapply seen_errors; [exact H|exact rep_nil|exact V]. Qed.
Lemma missing_reported : forall ord n v S es, seen (NColumn v) S [] n -> plain v -> missing v S -> validate_top ord n = Ok es ->
  In ("The column " ++ v ++ " was not found") es.
Proof.
  intros ord n v S es H P M V. destruct (top_seen _ _ _ _ _ H V) as (K & es' & R & E & I). cbn [validate] in E. rewrite (missing_errors S K v R P M) in E. injection E as <-. apply I. left. auto.
Qed.
Lemma ambiguous_reported : forall ord n v S es, seen (NColumn v) S [] n -> plain v -> ambiguous v S -> validate_top ord n = Ok es ->
  In ("column """ ++ v ++ """ is ambiguous") es.
Proof.
  intros ord n v S es H P M V. destruct (top_seen _ _ _ _ _ H V) as (K & es' & R & E & I). cbn [validate] in E. rewrite (ambiguous_errors S K v R P M) in E. injection E as <-. apply I. left. auto.
Qed.
Lemma dotted_reported : forall ord n a v S es, seen (NChained (NColumn a) (NColumn v)) S [] n -> plain a -> ~ In a COLUMN_KEYWORDS -> ~ In v COLUMN_KEYWORDS ->
  ~ found_in a v S -> validate_top ord n = Ok es -> In ("The column " ++ v ++ " was not found in alias " ++ a) es.
Proof.
  intros ord n a v S es H P Ka Kv N V. destruct (top_seen _ _ _ _ _ H V) as (K & es' & R & E & I). cbn [validate] in E. rewrite (dotted_errors S K a v R P Ka Kv N) in E. injection E as <-. apply I. left. auto.
Qed.
Lemma group_reported : forall ord n S es exprs al d don f w args ru ea h o l off s Sf arg v,
  seen (NSelect exprs al d don (Some f) w (Some (args, ru, ea)) h o l off s) S [] n -> provides f Sf ->
  In arg args -> wraps arg (NColumn v) -> plain v -> missing v (S ++ Sf) -> (forall e w', ~ In (NAlias e (inl v) w') exprs) ->
  validate_top ord n = Ok es -> In ("column """ ++ v ++ """ does not exist") es.
Proof.
  intros ord n S es exprs al d don f w args ru ea h o l off s Sf arg v H Pf Ia W P (NS & M) NA V. destruct (top_seen _ _ _ _ _ H V) as (K & es' & R & E & I). apply I. clear V I H.
  apply select_parts in E as (K' & e1 & e2 & e3 & e4 & e5 & e6 & e7 & e8 & H0 & H1 & H2 & H3 & H4 & H5 & H6 & H7 & H8 & ->).
  unfold visible in H0. destruct (provides_ok _ _ Pf) as (Kf & Ef & Rf). rewrite Ef in H0. injection H0 as <-. pose proof (rep_union _ _ _ _ R Rf) as R'.
  do 3 (apply in_or_app; right). apply in_or_app. left. cbn [ropt fst] in H4. destruct (rconcat_each _ _ _ _ H4 Ia) as [ex E]. eapply rconcat_In; [exact H4|exact Ia|exact E|].
  unfold group_arg_errors in E. rewrite (wraps_unparen _ _ W) in E. cbn [unparen rbind] in E.
  rewrite (not_named _ _ v R' P) in E by (intros I; apply M in I as [I _]; auto). rewrite (not_named _ _ "*" R' eq_refl) in E by (intros I; apply M in I as [_ I]; exact (I eq_refl eq_refl)).
  assert (A : mem v (string_aliases exprs) = false).
  { apply mem_false. intros I. unfold string_aliases in I. apply in_flat_map in I as (x & Ix & I). destruct x; try contradiction. destruct alias; try contradiction. destruct I as [->|[]]. eapply NA, Ix. }
  rewrite A in E. cbn [negb andb] in E. destruct (fmatching v (funion K Kf)) as [|q r] eqn:F; [injection E as <-; left; auto|]. exfalso.
  destruct (matching_in _ _ v q R') as (o' & I); [rewrite F; left; auto|]. apply M in I as [I _]. contradiction.
Qed.
