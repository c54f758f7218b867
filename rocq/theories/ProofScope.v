(** A statement that reads only provided columns gets no message about names. *)
From Coq Require Import Permutation.
From Verif Require Import PyStr Lib Ast AstLib Render RenderEq Validate Api Grammar SpecVal SpecAnswer SpecScope ProofVal.
From Verif Require ProofAnswer.
Local Open Scope str_scope.
Local Open Scope list_scope.

Definition enc (x : option str * str) : str := match fst x with Some a => a ++ "." ++ snd x | None => snd x end.
Definition encp (p : (option str * str) * option ty) : field := (enc (fst p), snd p).
Definition plain_entry (x : option str * str) : Prop := plain (snd x) /\ match fst x with Some a => plain a | None => True end.
(** the known fields [K] are those of the scope [S], with types *)
Definition rep (S : scope) (K : fields) : Prop :=
  NoDup K /\ (forall x, In x S -> plain_entry x) /\ exists L, map fst L = S /\ forall f, In f K <-> In f (map encp L).

Lemma rep_nil : rep [] [].
Proof. split; [constructor|]. split; [intros x []|]. exists []. split; auto. intros f; split; auto. Qed.
Lemma rep_union : forall S S' K K', rep S K -> rep S' K' -> rep (S ++ S') (funion K K').
Proof.
  intros S S' K K' (N & P & L & <- & H) (N' & P' & L' & <- & H'). split; [apply ProofAnswer.funion_NoDup; auto|].
  split; [intros x I; apply in_app_or in I as [I|I]; auto|]. exists (L ++ L'). split; [apply map_app|].
  intros f. rewrite funion_In, map_app, in_app_iff, H, H'. reflexivity.
Qed.
Lemma rep_named : forall S K x, rep S K -> In x S -> fnamed (enc x) K = true.
Proof.
  intros S K x (_ & _ & L & <- & H) I. apply in_map_iff in I as (p & <- & I). apply fnamed_In. exists (snd p). apply H.
  apply in_map_iff. exists p. auto.
Qed.
Lemma after_dot_plain : forall v, plain v -> after_dot v = None.
Proof.
  induction v as [|c v IH]; auto. unfold plain, has. cbn [existsb after_dot]. intros H. apply orb_false_iff in H as [H1 H2].
  rewrite N.eqb_sym, H1. apply IH; auto.
Qed.
Lemma after_dot_app : forall a v, plain a -> after_dot (a ++ "." ++ v) = Some v.
Proof.
  induction a as [|c a IH]; intros v H; auto. unfold plain, has in H. cbn [existsb] in H. apply orb_false_iff in H as [H1 H2].
  cbn [app after_dot]. rewrite N.eqb_sym, H1. apply IH; auto.
Qed.
Lemma unqualified_enc : forall x, plain_entry x -> unqualified (enc x) = snd x.
Proof.
  intros [[a|] v] (P & Q); unfold unqualified, enc; cbn [fst snd] in *; [rewrite after_dot_app by auto; auto|rewrite after_dot_plain by auto; auto].
Qed.
Lemma filter_map : forall {A B} (f : A -> B) (p : B -> bool) l, filter p (map f l) = map f (filter (fun x => p (f x)) l).
Proof. induction l as [|a l IH]; cbn; auto. destruct (p (f a)); cbn; rewrite IH; auto. Qed.

Lemma found_ok : forall v S K, rep S K -> found v S ->
  v = "*" \/ fnamed v K = true \/ fnamed "*" K = true \/ exists f, fmatching v K = [f].
Proof.
  intros v S K R [E|[I|[I|(a & F)]]]; auto.
  - right. left. apply (rep_named _ _ _ R I).
  - right. right. left. apply (rep_named _ _ _ R I).
  - destruct (fnamed v K) eqn:E; auto. right. right. right. destruct R as (N & P & L & <- & H).
    rewrite filter_map in F.
    destruct (filter (fun x => is_qualified v (fst x)) L) as [|p [|q r]] eqn:G; try discriminate F. cbn in F. injection F as F.
    assert (M : forall f, In f (fmatching v K) -> f = encp p).
    { intros f I. apply filter_In in I as [I U]. apply str_eqb_eq in U. pose proof I as IK. apply H in I. apply in_map_iff in I as (p' & <- & I).
      assert (Q : unqualified (enc (fst p')) = snd (fst p')) by (apply unqualified_enc, P, in_map; auto). unfold encp in *. cbn [fst] in U. rewrite Q in U.
      assert (J : In p' (filter (fun x => is_qualified v (fst x)) L)).
      { apply filter_In. split; auto. unfold is_qualified. destruct (fst (fst p')) as [b|] eqn:Eb; [rewrite U; apply str_eqb_refl|]. exfalso.
        assert (X : fnamed v K = true) by (apply fnamed_In; exists (snd p'); unfold enc in IK; rewrite Eb, U in IK; exact IK). congruence. }
      rewrite G in J. destruct J as [->|[]]. reflexivity. }
    assert (Ip : In p (filter (fun x => is_qualified v (fst x)) L)) by (rewrite G; left; auto). apply filter_In in Ip as [Ip _].
    assert (J : In (encp p) (fmatching v K)).
    { apply filter_In. split; [apply H, in_map; auto|]. unfold encp. cbn [fst]. rewrite unqualified_enc by (apply P, in_map; auto). rewrite F. apply str_eqb_refl. }
    assert (N' : NoDup (fmatching v K)) by (apply NoDup_filter; auto).
    destruct (fmatching v K) as [|f [|g r]]; [destruct J|eauto|]. exfalso. inversion N'; subst. apply H2. left.
    rewrite (M f), (M g); cbn; auto.
Qed.
Lemma found_in_ok : forall a v S K, rep S K -> found_in a v S ->
  fnamed (a ++ "." ++ v) K = true \/ fnamed (a ++ ".*") K = true \/ fnamed "*" K = true.
Proof.
  intros a v S K R [I|[I|I]]; [left|right; left|right; right]; exact (rep_named _ _ _ R I).
Qed.

Lemma return_type_err : forall e x, return_type e = Err x -> exists y, leads e y /\ is_sel y = true.
Proof.
  fix IH 1. intros e x H. destruct e; cbn in H; try discriminate H.
  - eexists. split; [constructor|reflexivity].
  - destruct (IH _ _ H) as (y & L & S). exists y. split; [constructor; auto|auto].
  - destruct args; [discriminate H|]. destruct (IH _ _ H) as (y & L & S). exists y. split; [constructor; auto|auto].
  - destruct (IH _ _ H) as (y & L & S). exists y. split; [constructor; auto|auto].
Qed.
Lemma gives_ok : forall es names, Forall2 gives es names -> exists fs L, rmap select_field es = Ok fs
  /\ map fst L = map (pair None) (concat names) /\ concat fs = map encp L /\ forall v, In v (concat names) -> plain v.
Proof.
  intros es names H. induction H as [|e l es names G H (fs & L & R & M & C & P)]; [exists [], []; repeat split; auto; intros v []|].
  cbn [rmap]. rewrite R.
  assert (X : exists f l', select_field e = Ok f /\ map fst l' = map (pair None) l /\ f = map encp l' /\ forall v, In v l -> plain v).
  { destruct G.
    - exists [(v, Some TObject)], [((None, v), Some TObject)]. repeat split; auto. intros x [<-|[]]. auto.
    - destruct (return_type e) as [t|x] eqn:T.
      + exists [(a, t)], [((None, a), t)]. cbn [select_field]. rewrite T. repeat split; auto. intros x [<-|[]]. auto.
      + exfalso. destruct (return_type_err e x T) as (y & Ly & Sy). rewrite (H1 y Ly) in Sy. discriminate.
    - destruct (return_type e) as [t|x] eqn:T.
      + exists [(a, t)], [((None, a), t)]. cbn [select_field]. rewrite T. repeat split; auto. intros x [<-|[]]. auto.
      + exfalso. destruct (return_type_err e x T) as (y & Ly & Sy). rewrite (H1 y Ly) in Sy. discriminate.
    - exists [], []. repeat split; auto; [|intros v []]. destruct e; auto; try discriminate. exfalso. eapply H1. reflexivity. }
  destruct X as (f & l' & -> & M' & -> & P'). cbn [rbind]. eexists. exists (l' ++ L). split; [reflexivity|].
  cbn [concat]. rewrite !map_app, M, M', C. split; auto. split; auto. intros v I. apply in_app_or in I as [I|I]; auto.
Qed.
Lemma rep_set : forall S l L, map fst L = S -> l = map encp L -> (forall x, In x S -> plain_entry x) -> rep S (fset l).
Proof.
  intros S l L M -> P. split; [apply ProofAnswer.funion_NoDup; constructor|]. split; auto. exists L. split; auto. intros f. apply fset_In.
Qed.
Lemma plain_names : forall l, (forall v, In v l -> plain v) -> forall x, In x (map (pair (@None str)) l) -> plain_entry x.
Proof. intros l H x I. apply in_map_iff in I as (v & <- & I). split; cbn; auto. Qed.
Lemma enc_star : forall x, plain_entry x -> enc x = "*" -> x = (None, "*").
Proof.
  intros [[a|] v] (P & Q) E; unfold enc in E; cbn [fst snd] in E; [|subst v; reflexivity]. exfalso. assert (I : In 46%N "*") by (rewrite <- E; apply in_or_app; right; left; auto).
  destruct I as [I|[]]. discriminate I.
Qed.
Lemma star_known : forall S K, rep S K -> fnamed "*" K = existsb (fun x => match fst x with None => str_eqb (snd x) "*" | Some _ => false end) S.
Proof.
  intros S K R. destruct (existsb _ S) eqn:E.
  - apply existsb_exists in E as ([[a|] v] & I & E); cbn in E; [discriminate|]. apply str_eqb_eq in E. subst. exact (rep_named _ _ _ R I).
  - destruct (fnamed "*" K) eqn:F; auto. apply fnamed_In in F as (t & F). destruct R as (_ & P & L & <- & H). apply H in F. apply in_map_iff in F as (p & Ep & I).
    unfold encp in Ep. injection Ep as Ep _. apply enc_star in Ep; [|apply P, in_map; auto].
    assert (X : existsb (fun x : option str * str => match fst x with None => str_eqb (snd x) "*" | Some _ => false end) (map fst L) = true).
    { apply existsb_exists. exists (fst p). split; [apply in_map; auto|]. rewrite Ep. reflexivity. }
    congruence.
Qed.
Lemma star_mem : forall names, existsb (fun x : option str * str => match fst x with None => str_eqb (snd x) "*" | Some _ => false end) (map (pair None) names) = mem "*" names.
Proof. induction names as [|v l IH]; auto. cbn [map existsb fst snd]. rewrite IH. unfold mem. cbn [existsb]. rewrite (str_eqb_sym v). reflexivity. Qed.

Lemma provides_ok : forall f S, provides f S -> exists K, known_fields f = Ok K /\ rep S K.
Proof.
  intros f S H. induction H.
  - exists [star]. split; auto. split; [constructor; [intros []|constructor]|]. split; [intros x [<-|[]]; split; cbn; auto; reflexivity|].
    exists [((None, "*"), Some TObject)]. split; auto. intros f. reflexivity.
  - destruct (gives_ok _ _ H) as (fs & L & R & M & C & P). cbn [known_fields]. rewrite R. cbn [rbind].
    exists (fset (concat fs)). split; [|eapply rep_set; eauto using plain_names]. destruct f as [f|]; auto. destruct f; auto. exfalso. eapply H0. reflexivity.
  - destruct (gives_ok _ _ H) as (fs & L & R & M & C & P). cbn [known_fields]. rewrite R. cbn [rbind].
    exists (fset (concat fs)). split; [|eapply rep_set; eauto using plain_names]. destruct s; auto. discriminate H0.
  - destruct (gives_ok _ _ H) as (fs & L & R & M & C & P). cbn [known_fields]. rewrite R. cbn [rbind].
    assert (RF : rep (map (pair None) (concat names)) (fset (concat fs))) by (eapply rep_set; eauto using plain_names).
    destruct IHprovides as (K & E & RK). destruct s; try discriminate H0. rewrite E. cbn [rbind].
    unfold star_names. rewrite (star_known _ _ RF), (star_known _ _ RK), star_mem.
    destruct (mem "*" (concat names) && _); [|eauto]. eexists. split; [reflexivity|]. apply rep_union; auto.
    split; [apply NoDup_filter, RF|]. split; [apply plain_names; intros v I; apply filter_In in I as [I _]; auto|].
    exists (filter (fun p => negb (str_eqb (snd (fst p)) "*")) L). split.
    + clear - M. revert M. generalize (concat names). intros l. revert L. induction l as [|v l IH]; intros [|[[q w] t] L] M; try discriminate M; auto.
      cbn in M. injection M as -> -> M. cbn [filter fst snd]. destruct (negb (str_eqb v "*")); cbn [map fst]; [f_equal|]; apply IH; auto.
    + intros f. rewrite filter_In, fset_In, C. split.
      * intros (I & N). apply in_map_iff in I as (p & <- & I). apply in_map. apply filter_In. split; auto.
        assert (X : In (fst p) (map (pair None) (concat names))) by (rewrite <- M; apply in_map; auto). apply in_map_iff in X as (v & Ev & _).
        unfold encp, enc in N. rewrite <- Ev in N |- *. exact N.
      * intros I. apply in_map_iff in I as (p & <- & I). apply filter_In in I as [I N]. split; [apply in_map; auto|].
        assert (X : In (fst p) (map (pair None) (concat names))) by (rewrite <- M; apply in_map; auto). apply in_map_iff in X as (v & Ev & _).
        unfold encp, enc. rewrite <- Ev in N |- *. exact N.
  - destruct IHprovides as (K & E & RK). exists K. split; auto. cbn [known_fields]. rewrite E. auto.
  - destruct IHprovides as (K & E & (N & P & L & M & HK)). cbn [known_fields]. rewrite E. cbn [rbind].
    assert (X : rep (map (fun x => (Some a, snd x)) S) (fset (map (fun f : field => (a ++ "." ++ fst f, snd f)) K))).
    { split; [apply ProofAnswer.funion_NoDup; constructor|]. split.
      - intros x I. apply in_map_iff in I as (y & <- & I). split; cbn; auto. apply P; auto.
      - exists (map (fun p => ((Some a, snd (fst p)), snd p)) L). split; [rewrite map_map, <- M, map_map; reflexivity|].
        intros f. rewrite fset_In. split.
        + intros I. apply in_map_iff in I as (g & <- & I). apply HK in I. apply in_map_iff in I as (p & <- & I). rewrite map_map. apply in_map_iff. exists p. split; auto.
          unfold encp, enc. cbn [fst snd]. rewrite (H1 (fst p)); auto. rewrite <- M. apply in_map; auto.
        + intros I. rewrite map_map in I. apply in_map_iff in I as (p & <- & I). apply in_map_iff. exists (encp p). split; [|apply HK, in_map; auto].
          unfold encp, enc. cbn [fst snd]. rewrite (H1 (fst p)); auto. rewrite <- M. apply in_map; auto. }
    unfold alias_fields. destruct K as [|k K]; [|cbn [rbind]; eexists; split; [reflexivity|exact X]]. exists []. split; auto.
  - destruct IHprovides1 as (K & E & RK). destruct IHprovides2 as (K' & E' & RK'). cbn [known_fields].
    assert (X : forall e S, provides e S -> match e with
           | NAlias e a _ => fs <- known_fields e ;; alias_fields (match a with inl s => Ok s | inr _ => Err TypeError end) fs
           | _ => known_fields e end = known_fields e).
    { intros e Se He. destruct He; auto. }
    rewrite (X l S), (X r S') by auto. rewrite E, E'. cbn [rbind]. eexists. split; [reflexivity|]. apply rep_union; auto.
Qed.

Lemma aliases_In : forall exprs x v w, In (NAlias x (inl v) w) exprs -> mem v (string_aliases exprs) = true.
Proof. intros exprs x v w I. apply mem_In. apply in_flat_map. exists (NAlias x (inl v) w). split; auto. left; auto. Qed.
Lemma by_name_sound : forall S K exprs v, rep S K -> (found v S /\ v <> "*" \/ exists x w, In (NAlias x (inl v) w) exprs) ->
  (if negb (fnamed v K) && negb (mem v (string_aliases exprs)) && negb (fnamed "*" K)
    then match fmatching v K with
         | [] => Ok ["column """ ++ v ++ """ does not exist"]
         | [_] => Ok []
         | _ => Err AttributeError
         end
    else Ok []) = Ok [].
Proof.
  intros S K exprs v R [(F & N)|(x & w & I)].
  - destruct (found_ok _ _ _ R F) as [E|[E|[E|(f & E)]]]; [congruence| | |]; rewrite E; cbn [negb]; rewrite ?andb_false_r; auto. destruct (_ && _); auto.
  - rewrite (aliases_In _ _ _ _ I). cbn [negb]. rewrite andb_false_r. auto.
Qed.
Lemma group_sound : forall S K exprs e es m, rep S K ->
  (forall v, (wraps e (NColumn v) \/ exists q p, wraps e (NString v q p)) -> found v S /\ v <> "*" \/ exists x w, In (NAlias x (inl v) w) exprs) ->
  group_arg_errors K exprs e = Ok es -> In m es -> ~ name_error m.
Proof.
  intros S K exprs e es m R G H I. unfold group_arg_errors in H. inv_bind H. apply unparen_wraps in Hb.
  destruct a; cbv beta zeta in H; try (injection H as <-; contradiction).
  - rewrite (by_name_sound S) in H; auto. injection H as <-. contradiction.
  - rewrite (by_name_sound S) in H; eauto. injection H as <-. contradiction.
  - destruct ((z <=? 0)%Z || _); injection H as <-; [destruct I as [<-|[]]; no_name | contradiction].
Qed.
Lemma column_sound : forall S K v, rep S K -> found v S -> column_errors v K = [].
Proof.
  intros S K v R F. unfold column_errors. destruct (found_ok _ _ _ R F) as [E|[E|[E|(f & E)]]].
  - rewrite E, str_eqb_refl. cbn [negb]. rewrite andb_false_r. auto.
  - rewrite E. auto.
  - rewrite E. cbn [negb]. rewrite andb_false_r. auto.
  - rewrite E. destruct (_ && _); auto.
Qed.

Lemma sound_no_name : forall n S K ord es m, sound S n -> rep S K -> validate ord K n = Ok es -> In m es -> ~ name_error m.
Proof.
  intros n. induction n as [n IH] using node_inside_ind. intros S K ord es m So R H I.
  assert (IHc : forall c S K es, inside c n -> sound S c -> rep S K -> validate ord K c = Ok es -> In m es -> ~ name_error m).
  { intros c S' K' es' Hc So' R'. eapply IH; eauto. }
  assert (IHl : forall l S K es, (forall c, In c l -> inside c n) -> (forall c, In c l -> sound S c) -> rep S K ->
                rconcat (validate ord K) l = Ok es -> In m es -> ~ name_error m).
  { intros l S' K' es' Hl Sl R' Hr Hm. eapply rconcat_In_inv in Hr as (x & ex & Hx & He & Hi); eauto. }
  clear IH.
  assert (Sub : match n with
    | NColumn _ | NChained _ _ | NAlias _ _ _ | NReplace _ _ | NTable _ _ | NJoin _ _ _ _ _ | NSelect _ _ _ _ _ _ _ _ _ _ _ _
    | NUnnest _ _ _ _ | NWith _ _ => True
    | _ => forall c, In c (children n) -> sound S c end).
  { destruct n; auto; inversion So; subst; auto. }
  destruct n; try (cbn in H; injection H as <-; contradiction).
  - (* select *)
    apply select_parts in H as (K' & e1 & e2 & e3 & e4 & e5 & e6 & e7 & e8 & H0 & H1 & H2 & H3 & H4 & H5 & H6 & H7 & H8 & ->).
    inversion So as [| | | | | | |S0 Sf exprs0 a0 d0 don0 f0 w0 g0 h0 o0 l0 off0 semi0 QN QP QS QE QW QG QH QO]; subst; [contradiction|].
    assert (R' : rep (S ++ Sf) K').
    { unfold visible in H0. destruct from_ as [f|]; [|rewrite (QN eq_refl), app_nil_r; injection H0 as <-; auto].
      destruct (provides_ok f Sf) as (Kf & E & Rf); auto. rewrite E in H0. injection H0 as <-. apply rep_union; auto. }
    in_app I.
    + eapply IHl; [| | exact R' | exact H1 | exact I]; [intros; child|auto].
    + destruct from_ as [f|]; [|injection H2 as <-; contradiction]. cbn in H2.
      eapply IHc; [| | exact rep_nil | exact H2 | exact I]; [child|auto].
    + destruct where_ as [x|]; [|injection H3 as <-; contradiction]. cbn in H3.
      inv_bind H3. inv_bind H3. injection H3 as <-. in_app I; [|useb].
      eapply IHc; [| | exact R' | exact Hb | exact I]; [child|auto].
    + destruct group as [[[args ru] ea]|]; [|injection H4 as <-; contradiction]. cbn in H4.
      eapply rconcat_In_inv in H4 as (x & ex & Hx & He & Hi); eauto. eapply group_sound; [exact R'| |exact He|exact Hi]. intros v W. eauto.
    + destruct having as [x|]; [|injection H5 as <-; contradiction]. cbn in H5.
      inv_bind H5. inv_bind H5. injection H5 as <-. in_app I; [|useb].
      eapply IHc; [| | exact R' | exact Hb | exact I]; [child|auto].
    + destruct order as [l|]; [|injection H6 as <-; contradiction]. cbn in H6.
      eapply rconcat_In_inv in H6 as (x & ex & Hx & He & Hi); eauto.
      destruct x; try discriminate. pose proof He as He'. unfold order_item_errors in He'. inv_bind He'. pose proof Hb as Hw. apply unparen_wraps in Hw.
      assert (Cases : (exists z, a = NInt z) \/ ~ exists z, a = NInt z) by (destruct a; eauto; right; intros (z & Z); discriminate Z).
      destruct Cases as [(z & ->)|N].
      * clear He. destruct (z <=? 0)%Z; [injection He' as <-; destruct Hi as [<-|[]]; no_name|].
        destruct (Z.of_nat (length exprs) <? z)%Z; injection He' as <-; [destruct Hi as [<-|[]]; no_name|contradiction].
      * eapply order_no_name; [| exact He | exact Hi]. intros es' H' I'. eapply IHc; [| |exact R'| exact H' | exact I']; [child2 (NOrderItem x asc desc)|].
        eapply QO; eauto. intros z W. apply N. exists z. apply wraps_unparen in W. rewrite Hb in W. cbn in W. congruence.
    + destruct limit as [[b [x|]]|]; [|discriminate|injection H7 as <-; contradiction].
      cbn in H7. eapply count_errors_no_name; [| | exact H7 | exact I]; no_name.
    + destruct offset as [x|]; [|injection H8 as <-; contradiction].
      cbn in H8. eapply count_errors_no_name; [| | exact H8 | exact I]; no_name.
  - cbn in H. eapply IHl; [| |exact R | exact H | exact I]; [intros; child|exact Sub].
  - cbn in H. inv_bind H. discriminate.
  - cbn in H. eapply IHl; [| |exact R | exact H | exact I]; [intros; child|exact Sub].
  - cbn in H. eapply IHc; [| |exact R | exact H | exact I]; [child|apply Sub; left; auto].
  - cbn in H. inv_bind H. inv_bind H. injection H as <-. in_app I.
    + eapply IHc; [| |exact R | exact Hb | exact I]; [child|apply Sub; cbn; auto].
    + eapply IHc; [| |exact R | exact Hb0 | exact I]; [child|apply Sub; cbn; auto].
  - cbn in H. inv_bind H. inv_bind H. inv_bind H. injection H as <-. in_app I.
    + eapply IHc; [| |exact R | exact Hb | exact I]; [child|apply Sub; cbn; auto].
    + destruct partition as [l|]; [|injection Hb0 as <-; contradiction]. cbn in Hb0.
      eapply IHl; [| |exact R | exact Hb0 | exact I]; [intros; child|]. intros c Ic. apply Sub. cbn. rewrite in_app_iff. auto.
    + destruct order as [l|]; [|injection Hb1 as <-; contradiction]. cbn in Hb1.
      eapply rconcat_In_inv in Hb1 as (x & ex & Hx & He & Hi); eauto.
      destruct x; try discriminate. eapply order_no_name; [| exact He | exact Hi].
      intros es' H' I'. eapply IHc; [| |exact R | exact H' | exact I']; [child2 (NOrderItem x asc desc)|].
      assert (Sx : sound S (NOrderItem x asc desc)) by (apply Sub; cbn; rewrite in_app_iff; auto). inversion Sx; subst. match goal with Q : forall c, In c (children _) -> _ |- _ => apply Q; left; auto end.
  - cbn in H. injection H as <-. inversion So; subst; [|contradiction]. rewrite (column_sound S) in I by auto. contradiction.
  - inversion So; subst; [|contradiction]. cbn [validate] in H. unfold chained_errors in H.
    rewrite !render_NColumn in H. unfold finish, column_text in H. cbn [rbind] in H.
    match goal with A : ~ In a COLUMN_KEYWORDS, B : ~ In v COLUMN_KEYWORDS |- _ => apply mem_false in A; apply mem_false in B; rewrite A, B in H end.
    match goal with A : found_in _ _ _ |- _ => apply (found_in_ok _ _ _ _ R) in A; destruct A as [A|[A|A]]; rewrite A in H end;
      cbn [negb] in H; rewrite ?andb_false_r in H; cbn [andb] in H; injection H as <-; contradiction.
  - cbn in H. eapply IHl; [| |exact R | exact H | exact I]; [intros; child|exact Sub].
  - cbn in H. inversion So; subst; [|contradiction]. eapply IHc; [| |exact R | exact H | exact I]; [child|auto].
  - rewrite join_errors in H. injection H as <-.
    match type of I with In _ (if ?b then _ else _) => destruct b end; [contradiction|]. destruct on_, using_; try contradiction.
    destruct I as [<-|[]]. no_name.
  - cbn in H. inv_bind H. inv_bind H. injection H as <-. in_app I.
    + eapply IHc; [| |exact R | exact Hb | exact I]; [child|apply Sub; cbn; auto].
    + destruct (str_eqb (lower pred) "between").
      * destruct n2; try discriminate. inv_bind Hb0. inv_bind Hb0. injection Hb0 as <-.
        assert (S2 : sound S (NBoolC ty n2_1 n2_2)) by (apply Sub; cbn; auto). inversion S2; subst.
        in_app I; [eapply IHc; [| |exact R | exact Hb1 | exact I]|eapply IHc; [| |exact R | exact Hb2 | exact I]];
          first [child2 (NBoolC ty n2_1 n2_2) | match goal with Q : forall c, In c (children _) -> _ |- _ => apply Q; cbn; auto end].
      * eapply IHc; [| |exact R | exact Hb0 | exact I]; [child|apply Sub; cbn; auto].
  - cbn in H. do 4 inv_bind H. injection H as <-. in_app I; try useb.
    + eapply IHc; [| |exact R | exact Hb | exact I]; [child|apply Sub; cbn; auto].
    + eapply IHc; [| |exact R | exact Hb1 | exact I]; [child|apply Sub; cbn; auto].
  - cbn in H. inversion So; subst; try contradiction. eapply rconcat_In_inv in H as (x & ex & Hx & He & Hi); eauto.
    destruct x; try discriminate. destruct alias; try discriminate.
    eapply IHc; [| |exact R | exact He | exact Hi]; [child2 (NAlias x (inr n0) with_as)|eauto].
Qed.
Lemma no_false_alarm : forall ord n es m, sound [] n -> validate_top ord n = Ok es -> In m es -> ~ name_error m.
Proof.
  intros ord n es m So H I. destruct n; try discriminate H. eapply sound_no_name; [exact So|exact rep_nil|exact H|exact I].
Qed.

(** ** Tactics for examples *)
Ltac lead := let x := fresh in let L := fresh in intros x L; inversion L; subst; reflexivity.
Ltac give := first [apply gv_column; reflexivity | apply gv_alias; [reflexivity | lead] | apply gv_alias_as; [reflexivity | lead]
  | apply gv_none; [reflexivity | intros; discriminate]].
Ltac give_all := repeat first [apply Forall2_nil | apply Forall2_cons; [give|]].
Ltac provide := first [apply pv_table | eapply pv_query_sub; [give_all | reflexivity | provide] | eapply pv_query; [give_all | intros ?; discriminate]
  | eapply pv_paren; provide | eapply pv_join; provide
  | eapply pv_alias; [provide | reflexivity | let x := fresh in let I := fresh in intros x I; vm_compute in I; repeat (destruct I as [<-|I]; [reflexivity|]); destruct I]].
Ltac find := unfold found, found_in; vm_compute; first [tauto | right; right; right; eexists; reflexivity].
Ltac each tac := let c := fresh in let I := fresh in intros c I; cbn in I; repeat (destruct I as [<-|I]; [tac|]); destruct I.
Ltac scoped := first
  [ apply so_column; find
  | apply so_dotted; [find | intros I; vm_compute in I; repeat (destruct I as [I|I]; [discriminate I|]); exact I ..]
  | apply so_alias; scoped | apply so_table | apply so_join; scoped
  | eapply so_query;
    [ try discriminate; intros; reflexivity
    | intros ? [= <-]; provide || discriminate
    | let H := fresh in intros ? [= <-]; scoped
    | each scoped
    | intros ? [= <-]; scoped
    | intros args ru ea arg v [= <- <- <-] I W; repeat (destruct I as [<-|I];
        [destruct W as [W|(q & p & W)]; repeat (inversion W; subst; clear W; match goal with W' : wraps _ _ |- _ => rename W' into W | _ => idtac end);
         first [left; split; [find|discriminate] | right; do 2 eexists; cbn; tauto] |]); destruct I
    | intros ? [= <-]; scoped
    | intros items e asc desc [= <-] I N; repeat (destruct I as [I|I]; [injection I as <- <- <-; first [scoped | exfalso; eapply N; constructor]|]); destruct I ]
  | apply so_parts; [exact Logic.I | each scoped] ].
