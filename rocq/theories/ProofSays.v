(** C67: the exact messages for queries on tables with and without aliases. *)
From Coq Require Import Permutation.
From Verif Require Import PyStr Lib Ast AstLib Render RenderEq Digits Validate Api Grammar GramTok GramText GramPrint SpecVal SpecScope SpecReport SpecNested SpecAnswer SpecApi SpecStuck
  ProofVal ProofVal2 ProofScope ProofReport ProofApi ProofNested ProofAnswer ProofRaise2 ProofStuck SpecTables ProofTables SpecNamed ProofNamed SpecSays.
Local Open Scope str_scope.
Local Open Scope list_scope.

Lemma tests_tested : forall who e x, tests e who x -> tested e x.
Proof. intros who e x T. destruct T; constructor. Qed.
Lemma value_typed : forall y t, value_type y t -> value_like y.
Proof. intros y t V. destruct V; constructor. Qed.
Lemma rt_typed : forall e t, return_type e = Ok (Some t) -> t <> TBool -> t <> TObject -> exists y, leads e y /\ value_type y (ty_name t).
Proof.
  induction e as [e IH] using node_ind'. intros t T B O. destruct e; cbn [return_type] in T;
    try (injection T as <-; congruence); try discriminate T;
    try (injection T as <-; eexists; split; [constructor|constructor]; fail).
  - destruct (IH e2 ltac:(cbn; auto) t T B O) as (y & L & V). exists y. split; [constructor|]; auto.
  - destruct args as [|a r]; [discriminate T|]. destruct (IH a ltac:(cbn; auto) t T B O) as (y & L & V). exists y. split; [constructor|]; auto.
  - destruct (IH e ltac:(cbn; auto) t T B O) as (y & L & V). exists y. split; [constructor|]; auto.
Qed.
Lemma typed_rt : forall e y t, leads e y -> value_type y t -> exists u, return_type e = Ok (Some u) /\ ty_name u = t /\ u <> TBool /\ u <> TObject.
Proof. intros e y t L V. induction L; auto. destruct V; eexists; (split; [reflexivity|split; [reflexivity|split; discriminate]]). Qed.

(** ** All messages are of some kind, or there is no answer *)
Definition ansP (P : str -> Prop) (B : Prop) (r : R (list str)) : Prop := (exists es, r = Ok es /\ Forall P es) \/ B.
Lemma ansP_rconcat : forall P B {A} (f : A -> R (list str)) l, (forall x, In x l -> ansP P B (f x)) -> ansP P B (rconcat f l).
Proof.
  intros P B A f l. unfold rconcat. induction l as [|a l IH]; intros H; cbn [rmap]; [left; cbn; eauto|]. destruct (H a) as [(b & -> & Hb)|X]; [left; auto| |right; auto]. cbn [rbind].
  destruct IH as [(bs & E & Hbs)|X]; [intros x I; apply H; right; auto| |right; auto]. inv_bind E. injection E as <-. left. rewrite Hb0. cbn. eexists. split; [reflexivity|]. apply Forall_app; auto.
Qed.
Lemma ansP_ropt : forall P B {A} (f : A -> R (list str)) o, (forall x, o = Some x -> ansP P B (f x)) -> ansP P B (ropt f o).
Proof. intros P B A f [a|] H; [apply H; auto|left; cbn; eauto]. Qed.
Lemma ansP_ok : forall (P : str -> Prop) (B : Prop) es, Forall P es -> ansP P B (Ok es).
Proof. intros. left. eauto. Qed.
Definition test_message (who t : str) : str := "The argument of " ++ who ++ " must be type boolean, not type " ++ t.
Lemma boolP : forall (P : str -> Prop) (B : Prop) ord who e S K, is_order ord -> wf Ex e = true -> good S K -> (forall y t, leads e y -> value_type y t -> P (test_message who t)) ->
  (forall y, leads e y -> is_sel y = true \/ y = NParen [] -> B) -> ansP P B (bool_errors ord who e K).
Proof.
  intros P B ord who e S K O W G HF HB. unfold bool_errors. destruct (resolve_good ord e S K O W G) as (t & _ & ->). destruct (fnamed t K); [left; cbn; eauto|].
  destruct (rt_cases e) as [[u T]|[[L T]|(x & L & Sx & T)]]; [|right; eapply HB; eauto|right; eapply HB; eauto].
  rewrite T. cbn [rbind]. destruct u; try (left; eexists; split; [reflexivity|constructor]; fail);
    (destruct (rt_typed e _ T) as (y & L & V); [discriminate|discriminate|]; left; eexists; split; [reflexivity|constructor; [exact (HF y _ L V)|constructor]]).
Qed.
Lemma countP : forall (P : str -> Prop) (B : Prop) a b e, ((forall z, ~ wraps e (NInt z)) -> P a) -> (forall z, wraps e (NInt z) -> (z < 0)%Z -> P b) ->
  (wraps e (NParen []) \/ (exists x, leads e x /\ is_sel x = true) -> B) -> ansP P B (count_errors a b e).
Proof.
  intros P B a b e Ha Hb HB. destruct (count_answers a b e) as [(es & E)|X]; [|right; auto]. left. exists es. split; auto.
  apply count_errors_inv in E as [(z & W & ->)|(-> & N)].
  - destruct (Z.ltb_spec z 0); constructor; eauto.
  - constructor; auto.
Qed.
Lemma bad_pos : forall n z, (z < 1 \/ Z.of_nat n < z)%Z -> bad_position n z = true.
Proof. intros n z Z. rewrite bad_position_spec; lia. Qed.
Lemma orderP : forall (P : str -> Prop) (B : Prop) count e rest, (wraps e (NParen []) -> B) ->
  (forall z, wraps e (NInt z) -> (z < 1)%Z -> P ("ORDER BY position " ++ str_of_Z z ++ " is not in select list")) ->
  (forall z, wraps e (NInt z) -> (0 < z)%Z -> match count with Some n => (Z.of_nat n < z)%Z -> P ("ORDER BY position " ++ str_of_Z z ++ " is not in select list") | None => B end) ->
  ((forall z, ~ wraps e (NInt z)) -> ansP P B rest) -> ansP P B (order_item_errors count e rest).
Proof.
  intros P B count e rest H0 Z1 Z2 Rs. unfold order_item_errors. destruct (unparen_cases e) as [[W _]|(v & U & W)]; [right; auto|]. rewrite U. cbn [rbind].
  assert (D : (exists z, v = NInt z) \/ forall z, v <> NInt z) by (destruct v; try (right; discriminate); left; eauto).
  destruct D as [[z ->]|D].
  - destruct (Z.leb_spec z 0); [left; eexists; split; [reflexivity|constructor; [eapply Z1; [exact W|lia]|constructor]]|]. specialize (Z2 z W ltac:(assumption)). destruct count; [|right; auto].
    left. eexists. split; [reflexivity|]. destruct (Z.ltb_spec (Z.of_nat n) z); constructor; auto.
  - assert (NI : forall z, ~ wraps e (NInt z)).
    { intros z X. apply wraps_unparen in X. rewrite U in X. cbn in X. injection X as X. eapply D; eauto. }
    specialize (Rs NI). destruct v; auto. destruct (D z eq_refl).
Qed.
Lemma groupP : forall (P : str -> Prop) (B : Prop) exprs e S K, good S K -> (wraps e (NParen []) -> B) ->
  (forall z, wraps e (NInt z) -> (z < 1 \/ Z.of_nat (length exprs) < z)%Z -> P ("GROUP BY position " ++ str_of_Z z ++ " is not in select list")) ->
  (forall v, group_named v e -> ~ In 42%N v) ->
  (forall v, group_named v e -> ~ open_scope S -> (forall x w, ~ In (NAlias x (inl v) w) exprs) -> P ("column """ ++ v ++ """ does not exist")) ->
  ansP P B (group_arg_errors K exprs e).
Proof.
  intros P B exprs e S K G HB HF HN HU. unfold group_arg_errors. destruct (unparen_cases e) as [[W _]|(v & U & W)]; [right; auto|]. rewrite U. cbn [rbind].
  assert (BN : forall u, group_named u e -> ansP P B (if negb (fnamed u K) && negb (mem u (string_aliases exprs)) && negb (fnamed "*" K)
    then match fmatching u K with [] => Ok ["column """ ++ u ++ """ does not exist"] | [_] => Ok [] | _ => Err AttributeError end else Ok [])).
  { intros u Gu. destruct (star_free S K u G (HN u Gu)) as [-> ->]. cbn [negb andb]. destruct (mem u (string_aliases exprs)) eqn:M; cbn [negb andb]; [left; eauto|].
    destruct (fnamed "*" K) eqn:Fs; cbn [negb]; [left; eauto|]. left. eexists. split; [reflexivity|]. constructor; [|constructor]. apply (HU u Gu).
    - intros X. apply (open_named S K (proj1 G)) in X. congruence.
    - intros x w I. apply aliases_In in I. congruence. }
  destruct v; try (left; eexists; split; [reflexivity|constructor]; fail).
  - apply BN. left. auto.
  - apply BN. right. eauto.
  - left. destruct (Z.leb_spec z 0); [eexists; split; [reflexivity|]; constructor; [eapply HF; [exact W|lia]|constructor]|]. cbn [orb].
    destruct (Z.ltb_spec (Z.of_nat (length exprs)) z); [eexists; split; [reflexivity|]; constructor; [eapply HF; [exact W|lia]|constructor]|eauto].
Qed.
Lemma says_tables : forall ord f, named_tables f -> forall S K, ansP (fun m => exists x S', seen x S' S f /\ says m x S') False (validate ord K f).
Proof.
  intros ord f T S K.
  assert (J : forall ty l r on_ using_, ansP (fun m => exists x S', seen x S' S (NJoin ty l r on_ using_) /\ says m x S') False (validate ord K (NJoin ty l r on_ using_))).
  { clear. intros. left. eexists. split; [reflexivity|]. destruct (mem ty ["CROSS JOIN"; ","]) eqn:M; cbn [negb andb]; [constructor|].
    destruct on_; [constructor|]. destruct using_; [constructor|]. constructor; [|constructor]. eexists _, _. split; [constructor|].
    apply sy_clause; [constructor|]. constructor; intros ->; discriminate M. }
  assert (Up : forall a n, part a n -> ansP (fun m => exists x S', seen x S' S a /\ says m x S') False (validate ord K a) -> ansP (fun m => exists x S', seen x S' S n /\ says m x S') False (validate ord K a)).
  { intros a n Pa [(es & E & Es)|[]]. left. exists es. split; auto. eapply Forall_impl; [|exact Es]. intros m (x & S' & L & Fx). exists x, S'. split; auto. eapply sn_part; eauto. }
  assert (Tb : forall e, tables e -> ansP (fun m => exists x S', seen x S' S e /\ says m x S') False (validate ord K e)).
  { clear T f. intros f T. induction T; [left; exists []; auto| |apply J].
    cbn [validate]. apply ansP_rconcat. intros x [<-|[]]. apply Up; auto. constructor. left. auto. }
  induction T; [left; exists []; auto| | |apply J].
  - cbn [validate]. apply Up; auto. constructor.
  - cbn [validate]. apply ansP_rconcat. intros x [<-|[]]. apply Up; auto. constructor. left. auto.
Qed.

Section Says.
  Variable ord : fields -> fields.
  Hypothesis Ord : is_order ord.
  Ltac got H := let es := fresh "es" in let Ee := fresh "Ee" in destruct H as [(es & -> & Ee)|?]; [|right; assumption].
  Lemma says_decides : forall n S K, shaped2 n = true -> all_named n -> good S K ->
    ansP (fun m => exists x S', seen x S' S n /\ says m x S') (exists x, looked x n /\ halts x) (validate ord K n).
  Proof.
    induction n as [n H] using node_inside_ind. intros S K W A G.
    destruct (visible_good n S K A G) as (Sf & K' & Fs & VS & G').
    assert (X : forall c, part c n -> ansP (fun m => exists x S', seen x S' S n /\ says m x S') (exists x, looked x n /\ halts x) (validate ord K c)).
    { intros c P. assert (Bl : near c n) by (left; auto).
      destruct (H c (below_inside _ _ (near_below _ _ Bl)) S K (near_shaped _ _ W Bl) (named_below _ _ (near_below _ _ Bl) A) G) as [(es & E & Es)|(x & L & Hx)].
      - left. exists es. split; auto. eapply Forall_impl; [|exact Es]. intros m (x & S' & L & Fx). exists x, S'. split; auto. eapply sn_part; eauto.
      - right. exists x. split; auto. eapply lk_part; eauto. }
    assert (XV : forall c, validated_in c n -> ansP (fun m => exists x S', seen x S' S n /\ says m x S') (exists x, looked x n /\ halts x) (validate ord K' c)).
    { intros c P. assert (Bl : near c n) by (right; auto).
      destruct (H c (below_inside _ _ (near_below _ _ Bl)) (S ++ Sf) K' (near_shaped _ _ W Bl) (named_below _ _ (near_below _ _ Bl) A) G') as [(es & E & Es)|(x & L & Hx)].
      - left. exists es. split; auto. eapply Forall_impl; [|exact Es]. intros m (x & S' & L & Fx). exists x, S'. split; auto. eapply clause_seen; eauto.
      - right. exists x. split; auto. eapply lk_clause; eauto. }
    clear H.
    assert (HF : forall m, says m n S -> (fun m => exists x S', seen x S' S n /\ says m x S') m) by (intros m Q; cbv beta; exists n, S; split; [constructor|auto]).
    assert (HH : halts n -> exists x, looked x n /\ halts x) by (intros Q; exists n; split; [constructor|auto]).
    assert (XT : forall who e, tests e who n -> ansP (fun m => exists x S', seen x S' S n /\ says m x S') (exists x, looked x n /\ halts x) (bool_errors ord who e K)).
    { intros who e T. apply tests_tested in T as T'. eapply boolP; [exact Ord|eapply tested_wf; eauto|exact G|intros y t L V; apply HF; eapply sy_test; eauto|intros y L V; apply HH; right; eauto]. }
    assert (XT' : forall who e, tests e who n -> ansP (fun m => exists x S', seen x S' S n /\ says m x S') (exists x, looked x n /\ halts x) (bool_errors ord who e K')).
    { intros who e T. apply tests_tested in T as T'. eapply boolP; [exact Ord|eapply tested_wf; eauto|exact G'|intros y t L V; apply HF; eapply sy_test; eauto|intros y L V; apply HH; right; eauto]. }
    assert (XP : forall l, (forall c, In c l -> part c n) -> ansP (fun m => exists x S', seen x S' S n /\ says m x S') (exists x, looked x n /\ halts x) (rconcat (validate ord K) l)).
    { intros l I. apply ansP_rconcat. intros c Ic. apply X. auto. }
    assert (XF : forall f, from_of n = Some f -> ansP (fun m => exists x S', seen x S' S n /\ says m x S') (exists x, looked x n /\ halts x) (validate ord [] f)).
    { intros f E. destruct (says_tables ord f (proj1 A n f (lk_here n) E) [] []) as [(es & Ee & Es)|[]]; left; exists es; split; auto. eapply Forall_impl; [|exact Es]. intros m (x & S' & L & Fx). exists x, S'. split; [eapply sn_from; eauto|auto]. }
    assert (NG : forall v, grouped v n -> ~ In 42%N v) by (intros v; apply (proj2 A); constructor).
    assert (WE : match n with NSelect _ _ _ _ _ _ _ _ _ _ _ _ | NParen _ | NAlias _ _ _ | NJoin _ _ _ _ _ => True
                 | NWith _ _ | NTable _ _ | NUnnest _ _ _ _ | NCombined _ _ _ => True | _ => wf Ex n = true end).
    { unfold shaped2, shaped in W. destruct n; auto; cbn [without_from] in W; destruct (wf Ex _) eqn:E; auto. }
    set (F := fun m => exists x S', seen x S' S n /\ says m x S') in *. set (B := exists x, looked x n /\ halts x) in *. clearbody F B.
    destruct n; try (left; exists []; split; [reflexivity|constructor]).
    - (* SELECT *) clear WE X XT XP A. unfold shaped2 in W. cbn [without_from] in W. apply shaped_sel in W; auto. cbn [with_semi] in W. rewrite wf_select in W. bools. cbn [from_of] in *.
      assert (E1 : ansP F B (rconcat (validate ord K') exprs)).
      { apply ansP_rconcat. intros x I. apply XV. constructor. auto. }
      assert (E2 : ansP F B (ropt (validate ord []) from_)).
      { apply ansP_ropt. intros x ->. apply XF. auto. }
      assert (EC : forall who x, validated_in x (NSelect exprs sel_all sel_distinct distinct_on from_ where_ group having order limit offset semi) ->
        tests x who (NSelect exprs sel_all sel_distinct distinct_on from_ where_ group having order limit offset semi) ->
        ansP F B (a <- validate ord K' x ;; b <- bool_errors ord who x K' ;; Ok (a ++ b))).
      { intros who x Vx T. got (XV x Vx). cbn [rbind]. got (XT' who x T). cbn [rbind]. apply ansP_ok. apply Forall_app; split; auto. }
      assert (E3 : ansP F B (ropt (fun x => a <- validate ord K' x ;; b <- bool_errors ord "WHERE" x K' ;; Ok (a ++ b)) where_)).
      { apply ansP_ropt. intros x ->. apply EC; [apply vi_where|constructor]. }
      assert (E5 : ansP F B (ropt (fun x => a <- validate ord K' x ;; b <- bool_errors ord "HAVING" x K' ;; Ok (a ++ b)) having)).
      { apply ansP_ropt. intros x ->. apply EC; [apply vi_having|constructor]. }
      assert (E4 : ansP F B (ropt (fun g : list node * bool * bool => rconcat (group_arg_errors K' exprs) (fst (fst g))) group)).
      { apply ansP_ropt. intros [[args ru] ea] ->. cbn [fst]. apply ansP_rconcat. intros x I.
        assert (GR : forall v, group_named v x -> grouped v (NSelect exprs sel_all sel_distinct distinct_on from_ where_ (Some (args, ru, ea)) having order limit offset semi)).
        { intros v Gv. exists exprs, sel_all, sel_distinct, distinct_on, from_, where_, args, ru, ea, having, order, limit, offset, semi, x. auto. }
        apply (groupP F B exprs x (S ++ Sf) K' G').
        - intros Wx. apply HH. left. eapply sk_group; eauto.
        - intros z Wx Z. apply HF. apply sy_clause; [constructor|]. eapply or_group_position; eauto. apply bad_pos; auto.
        - intros v Gv. apply NG. auto.
        - intros v Gv No Na. apply HF. eapply sy_group; eauto. }
      assert (E6 : ansP F B (ropt (rconcat (fun i => match i with
                  | NOrderItem e _ _ => order_item_errors (Some (length exprs)) e (validate ord K' e)
                  | _ => Err TypeError end)) order)).
      { apply ansP_ropt. intros items ->. apply ansP_rconcat. intros i I. cbn [oall] in *. unfold itemsok in *. bools.
        match goal with U : forallb itemok items = true |- _ => rewrite forallb_forall in U; pose proof (U i I) as Wi end.
        destruct i; try discriminate Wi. apply orderP.
        - intros Wr. apply HH. left. eapply sk_order; eauto.
        - intros z Wr Z. apply HF. apply sy_clause; [constructor|]. eapply or_order_position; eauto. apply bad_pos; auto.
        - intros z Wr Z Z'. apply HF. apply sy_clause; [constructor|]. eapply or_order_position; eauto. apply bad_pos; auto.
        - intros NI. apply XV. eapply vi_order; eauto. }
      assert (E7 : ansP F B (ropt (fun l : bool * option node => match snd l with Some x => count_errors LIMIT_VAR LIMIT_NEG x | None => Err AttributeError end) limit)).
      { apply ansP_ropt. intros [b [x|]] ->; cbn [snd]; [|right; apply HH; left; apply sk_all].
        apply countP; [intros Z; apply HF; apply sy_clause; [constructor|apply or_limit; auto]|intros z Wz Z; apply HF; apply sy_clause; [constructor|eapply or_limit_neg; eauto]|intros Z; apply HH; left; apply sk_limit; auto]. }
      assert (E8 : ansP F B (ropt (count_errors OFFSET_VAR OFFSET_NEG) offset)).
      { apply ansP_ropt. intros x ->. apply countP; [intros Z; apply HF; apply sy_clause; [constructor|apply or_offset; auto]|intros z Wz Z; apply HF; apply sy_clause; [constructor|eapply or_offset_neg; eauto]|intros Z; apply HH; left; apply sk_offset; auto]. }
      clear - VS E1 E2 E3 E4 E5 E6 E7 E8.
      repeat match goal with E : ansP F B _ |- _ => destruct E as [(? & ? & ?)|?]; [|right; assumption] end.
      left. eexists. split; [eapply select_build; eauto|]. repeat (apply Forall_app; split); auto.
    - (* call *) apply XP. intros; constructor; auto.
    - (* CAST *) right. apply HH. left. constructor.
    - (* COUNT *) apply XP. intros; constructor; auto.
    - (* ARRAY_AGG *) cbn [validate]. apply X. constructor.
    - (* FILTER *) cbn [validate]. got (X n1 (pt_filter_f _ _)). got (X n2 (pt_filter_c _ _)). cbn [rbind]. apply ansP_ok. apply Forall_app; split; auto.
    - (* OVER *) rewrite wf_analytics in WE. bools. cbn [validate]. got (X n (pt_over_f _ _ _ _)). cbn [rbind].
      assert (E1 : ansP F B (ropt (rconcat (validate ord K)) partition)) by (apply ansP_ropt; intros l ->; apply XP; intros; constructor; auto).
      assert (E2 : ansP F B (ropt (rconcat (fun i => match i with
                 | NOrderItem e _ _ => order_item_errors None e (validate ord K e)
                 | _ => Err TypeError end)) order)).
      { apply ansP_ropt. intros items ->. apply ansP_rconcat. intros i I. cbn [oall] in *. unfold itemsok in *. bools.
        match goal with U : forallb itemok items = true |- _ => rewrite forallb_forall in U; pose proof (U i I) as Wi end.
        destruct i; try discriminate Wi. apply orderP.
        - intros Wr. apply HH. left. eapply sk_over_empty; eauto.
        - intros z Wr Z. apply HF. apply sy_clause; [constructor|]. eapply or_over_position; eauto. lia.
        - intros z Wr Z. apply HH. left. eapply sk_over; eauto.
        - intros NI. apply X. eapply pt_over_o; eauto. }
      got E1. got E2. cbn [rbind]. apply ansP_ok. repeat (apply Forall_app; split); auto.
    - (* column *) cbn [validate]. apply ansP_ok. destruct (str_eqb v "*") eqn:Ev; [unfold column_errors; rewrite Ev; cbn [negb]; rewrite andb_false_r; constructor|]. unfold column_errors. rewrite Ev. apply str_eqb_neq in Ev.
      destruct (fnamed "*" K) eqn:Fk; [cbn [negb]; rewrite andb_false_r; constructor|].
      assert (Iv : ident v = true) by (cbn [wf] in WE; apply str_eqb_neq in Ev; rewrite Ev, orb_false_r in WE; exact WE).
      destruct (star_free S K v G) as [-> ->]; [apply (not_char v 42%N Iv eq_refl)|]. cbn [negb andb]. constructor; [|constructor]. apply HF. apply sy_column; auto. intros Op. apply (open_named S K (proj1 G)) in Op. congruence.
    - (* dotted *) rewrite wf_chained in WE. bools. cbn [validate]. unfold chained_errors.
      destruct (good_all n1) as (G1 & _). destruct (G1 ltac:(assumption)) as ((u1 & U1 & _) & _). rewrite U1. cbn [rbind].
      destruct (good_all n2) as (G2 & _). destruct (G2 ltac:(assumption)) as ((u2 & U2 & _) & _). rewrite U2. cbn [rbind].
      assert (U3 : render Str n2 = Ok u2). { rewrite render_str, U2; [reflexivity|assumption|].
      match goal with U : _ || _ = true |- _ => apply orb_true_iff in U as [U|U]; [apply Nat.leb_le in U; lia|destruct n2; try discriminate U; cbn; destruct n2; lia] end. }
      rewrite U3. cbn [rbind]. destruct (negb (fnamed (u1 ++ "." ++ u2) K) && negb (fnamed (u1 ++ ".*") K) && negb (fnamed "*" K)) eqn:E; apply ansP_ok; [|constructor].
      constructor; [|constructor]. apply HF. rewrite !andb_true_iff, !negb_true_iff in E. destruct E as [[_ Ed] Es]. apply sy_dotted; auto.
      + intros a Ha ->. destruct G as (R & _ & St). destruct (St _ Ha) as [_ Ia]. destruct (Ia a eq_refl) as [Ia' Ka].
        rewrite render_NColumn in U1. cbn [rbind Render.finish] in U1. injection U1 as U1. unfold column_text in U1.
        assert (M : mem a COLUMN_KEYWORDS = false). { apply mem_false. intros M. apply Ka. apply lower_kw. auto. }
        rewrite M in U1. subst u1. apply (table_named S K a R (ident_plain a Ia')) in Ha. unfold dot_all in Ha. congruence.
      + intros Op. apply (open_named S K (proj1 G)) in Op. congruence.
    - (* parentheses *) apply XP. intros; constructor; auto.
    - (* alias *) cbn [validate]. apply X. constructor.
    - (* join *) left. eexists. split; [reflexivity|]. destruct (mem ty ["CROSS JOIN"; ","]) eqn:M; cbn [negb andb]; [constructor|].
      destruct on_; [constructor|]. destruct using_; [constructor|]. constructor; [|constructor]. apply HF. apply sy_clause; [constructor|]. constructor; intros ->; discriminate M.
    - (* comparison *) rewrite wf_cond in WE. bools. cbn [validate]. got (X n1 (pt_cond_l _ _ _)). cbn [rbind].
      destruct (str_eqb (lower pred) "between") eqn:Bt.
      + apply str_eqb_eq in Bt. destruct n2; try discriminate.
        got (X n2_1 (pt_between_l _ _ _ _ _ Bt)). got (X n2_2 (pt_between_r _ _ _ _ _ Bt)). cbn [rbind]. apply ansP_ok. repeat (apply Forall_app; split); auto.
      + apply str_eqb_neq in Bt. got (X n2 (pt_cond_r _ _ _ Bt)). cbn [rbind]. apply ansP_ok. apply Forall_app; split; auto.
    - (* AND, OR *) cbn [validate].
      got (X n1 (pt_bool_l _ _ _)). cbn [rbind]. got (XT (upper ty) n1 (ts_left _ _ _)). cbn [rbind].
      got (X n2 (pt_bool_r _ _ _)). cbn [rbind]. got (XT (upper ty) n2 (ts_right _ _ _)). cbn [rbind]. apply ansP_ok. repeat (apply Forall_app; split); auto.
    - (* REPLACE *) rewrite wf_replace in WE. bools. cbn [validate]. apply ansP_rconcat. intros x I.
      match goal with U : forallb argok args = true, U' : forallb as_alias args = true |- _ => rewrite forallb_forall in U, U'; pose proof (U x I) as Ax; pose proof (U' x I) as Bx end.
      destruct x; try discriminate Bx. destruct with_as; try discriminate Bx. unfold argok in Ax. cbn [is_sel] in Ax. bools.
      match goal with U : wf Ex (NAlias _ _ _) = true |- _ => rewrite wf_alias in U end. bools. cbn [aliasok] in *. destruct alias as [t|y]; [discriminate|].
      apply X. eapply pt_replace; eauto.
  Qed.

  (** ** And each deserved message is given *)
  Lemma tests_good : forall who e x S K es, tests e who x -> all_named x -> good S K -> validate ord K x = Ok es ->
    exists S' K' es', good S' K' /\ bool_errors ord who e K' = Ok es' /\ incl es' es.
  Proof.
    intros who e x S K es T A G V. destruct (visible_good x S K A G) as (Sf & K' & _ & VS & G'). destruct T.
    - apply select_parts in V as (K1 & e1 & e2 & e3 & e4 & e5 & e6 & e7 & e8 & H0' & H1' & H2' & H3' & H4' & H5' & H6' & H7' & H8' & ->).
      cbn [from_of] in VS. rewrite VS in H0'. injection H0' as <-. cbn [ropt] in H3'. inv_bind H3'. inv_bind H3'. injection H3' as <-. eexists _, K', _. split; [exact G'|]. split; [eassumption|].
      intros m I. rewrite !in_app_iff. auto.
    - apply select_parts in V as (K1 & e1 & e2 & e3 & e4 & e5 & e6 & e7 & e8 & H0' & H1' & H2' & H3' & H4' & H5' & H6' & H7' & H8' & ->).
      cbn [from_of] in VS. rewrite VS in H0'. injection H0' as <-. cbn [ropt] in H5'. inv_bind H5'. inv_bind H5'. injection H5' as <-. eexists _, K', _. split; [exact G'|]. split; [eassumption|].
      intros m I. rewrite !in_app_iff. auto 10.
    - cbn [validate] in V. do 4 inv_bind V. injection V as <-. eexists S, K, _. split; [exact G|]. split; [eassumption|]. intros m I. rewrite !in_app_iff. auto.
    - cbn [validate] in V. do 4 inv_bind V. injection V as <-. eexists S, K, _. split; [exact G|]. split; [eassumption|]. intros m I. rewrite !in_app_iff. auto.
  Qed.
  Lemma says_given : forall m x S K es, says m x S -> shaped2 x = true -> all_named x -> good S K -> validate ord K x = Ok es -> In m es.
  Proof.
    intros m x S K es Sx W A G V. destruct Sx.
    - apply clause_not in H as [N T]. eapply looked_reported; eauto. constructor.
    - destruct (tests_good _ _ _ _ _ _ H A G V) as (S' & K' & es' & G' & E & I). apply I. unfold bool_errors in E.
      rewrite (resolve_value ord e y S' K' Ord (tested_wf _ _ (tests_tested _ _ _ H) W) G' H0 (or_introl (value_typed _ _ H1))) in E.
      destruct (typed_rt _ _ _ H0 H1) as (u & T & Nu & N1 & N2). rewrite T in E. cbn [rbind] in E. rewrite <- Nu. destruct u; try congruence; injection E as <-; left; reflexivity.
    - cbn [validate] in V. injection V as <-. unfold shaped2, shaped in W. cbn [without_from] in W.
      assert (Iv : ident v = true). { cbn [wf is_sel] in W. apply str_eqb_neq in H. rewrite H, orb_false_r in W. destruct (ident v); auto. }
      unfold column_errors. destruct (star_free S K v G) as [-> ->]; [apply (not_char v 42%N Iv eq_refl)|].
      apply str_eqb_neq in H. rewrite H. destruct (fnamed "*" K) eqn:Fk; [apply (open_named S K (proj1 G)) in Fk; contradiction|]. left. reflexivity.
    - assert (WE : wf Ex (NChained l r) = true) by (unfold shaped2, shaped in W; cbn [without_from] in W; destruct (wf Ex (NChained l r)); auto). rewrite wf_chained in WE. bools.
      cbn [validate] in V. unfold chained_errors in V. rewrite H1 in V. cbn [rbind] in V. inv_bind V. rename a0 into rt.
      assert (TN : forall b, ident b = true -> ~ In (lower b) COLUMN_KEYWORDS -> has_table b S -> a <> b).
      { intros b Ib Kb Hb' ->. apply (H b Hb'). apply text_name; auto; match goal with |- lvl l = 0 => match goal with U : (lvl l <=? 0) = true |- _ => apply Nat.leb_le in U; lia | U : lvl l <= 0 |- _ => lia end | |- is_number l = false => destruct (is_number l); auto; discriminate | _ => idtac end. }
      assert (N1 : fnamed (a ++ "." ++ rt) K = false).
      { destruct (fnamed (a ++ "." ++ rt) K) eqn:F; auto. exfalso. destruct (good_named _ _ _ G F) as [(E & _)|(b & Ib & Kb & E & Hb')]; [eapply dot_star; exact E|]. apply split_dot in E as [E _]; auto. eapply TN; eauto. }
      assert (N2 : fnamed (a ++ ".*") K = false).
      { destruct (fnamed (a ++ ".*") K) eqn:F; auto. exfalso. destruct (good_named _ _ _ G F) as [(E & _)|(b & Ib & Kb & E & Hb')]; [eapply dot_star; exact E|]. change (a ++ ".*") with (a ++ "." ++ "*") in E. apply split_dot in E as [E _]; auto. eapply TN; eauto. }
      rewrite N1, N2 in V. destruct (fnamed "*" K) eqn:Fk; [apply (open_named S K (proj1 G)) in Fk; contradiction|]. cbn [negb andb] in V. rewrite H2 in V. cbn [rbind] in V. injection V as <-. left. reflexivity.
    - destruct (visible_any _ S K Sf A G H0) as (K' & Vi & G'). destruct H as (exprs' & a' & d' & don' & f' & w' & args & ru & ea & h' & o' & l' & off' & semi' & arg & E & Ia & Gv). injection E as <- <- <- <- <- <- -> <- <- <- <- <-.
      assert (Sv : ~ In 42%N v). { apply (proj2 A (NSelect exprs a d don f w (Some (args, ru, ea)) h o l off s)); [constructor|]. exists exprs, a, d, don, f, w, args, ru, ea, h, o, l, off, s, arg. auto. }
      apply select_parts in V as (K1 & e1 & e2 & e3 & e4 & e5 & e6 & e7 & e8 & H0' & H1' & H2' & H3' & H4' & H5' & H6' & H7' & H8' & ->). cbn [from_of] in Vi. rewrite Vi in H0'. injection H0' as <-.
      cbn [ropt fst] in H4'. destruct (rconcat_each _ _ _ _ H4' Ia) as [ex E].
      assert (M : In ("column """ ++ v ++ """ does not exist") ex).
      { assert (Mv : mem v (string_aliases exprs) = false).
        { apply mem_false. intros I. unfold string_aliases in I. apply in_flat_map in I as (x & Ix & I). destruct x; try contradiction. destruct alias; try contradiction. destruct I as [->|[]]. eapply H2, Ix. }
        assert (Fk : fnamed "*" K' = false) by (destruct (fnamed "*" K') eqn:Fk; auto; apply (open_named _ K' (proj1 G')) in Fk; contradiction).
        destruct (star_free _ K' v G' Sv) as [F1 F2]. unfold group_arg_errors in E.
        destruct Gv as [Gv|(q & p & Gv)]; rewrite (wraps_unparen _ _ Gv) in E; cbn [unparen rbind] in E; rewrite F1, F2, Mv, Fk in E; cbn [negb andb] in E; injection E as <-; left; auto. }
      assert (M' : In ("column """ ++ v ++ """ does not exist") e4) by (eapply rconcat_In; [exact H4'|exact Ia|exact E|exact M]).
      rewrite !in_app_iff. auto 10.
  Qed.
  Lemma says_from : forall m x S K es, named_tables x -> says m x S -> validate ord K x = Ok es -> In m es.
  Proof.
    intros m x S K es T Sx V. destruct Sx; try (inversion T; fail).
    - apply clause_not in H as [N U]. eapply looked_reported; eauto. constructor.
    - destruct H; inversion T.
  Qed.
End Says.

Lemma named_messages : forall q n ord es m, is_order ord -> parse_sql q = Ok n -> is_sel n = true -> statement (without_from n) = true -> on_named_tables n ->
  errors_of ord q = Ok es -> (In m es <-> exists x S, seen x S [] n /\ says m x S).
Proof.
  intros q n ord es m O P Sn W A V. unfold errors_of in V. rewrite P in V. cbn [rbind] in V. destruct n; try discriminate Sn. cbn [validate_top] in V.
  match type of A with on_named_tables ?x => set (n := x) in * end.
  assert (Sh : shaped2 n = true) by (unfold shaped2, shaped; unfold statement in W; rewrite W; apply orb_true_r).
  split.
  - intros I. destruct (says_decides ord O n [] [] Sh A good_nil) as [(es' & E & F)|B].
    + rewrite V in E. injection E as <-. rewrite Forall_forall in F. apply F. auto.
    + destruct (named_halts ord O n es Sh A V B).
  - intros (x & S' & Se & Sx). destruct (seen_good ord x S' [] n Se Sh A _ _ good_nil V) as [(Shx & Ax & K' & es' & G' & E & I)|(T & K' & es' & E & I)]; apply I.
    + eapply says_given; eauto.
    + eapply says_from; eauto.
Qed.
