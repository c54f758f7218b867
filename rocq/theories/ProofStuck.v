(** C24, exactly: some part is stuck, or validation answers. *)
From Coq Require Import Permutation.
From Verif Require Import PyStr Lib Ast AstLib Render Validate Api Grammar GramTok GramText GramPrint SpecVal SpecScope SpecReport SpecNested SpecAnswer SpecApi SpecStuck
  ProofVal ProofVal2 ProofReport ProofApi ProofNested ProofAnswer ProofRaise2.
Local Open Scope str_scope.
Local Open Scope list_scope.

(** ** Stuck parts raise *)
Lemma wraps_leads : forall e x, wraps e x -> forall y, leads x y -> leads e y.
Proof. intros e x W. induction W; auto. intros y L. constructor. auto. Qed.
Lemma unparen_cases : forall e, (wraps e (NParen []) /\ unparen e = Err IndexError) \/ exists v, unparen e = Ok v /\ wraps e v.
Proof.
  induction e as [e IH] using node_ind'. destruct e; try (right; eexists; split; [reflexivity|constructor]).
  destruct args as [|a r]; [left; split; [constructor|reflexivity]|]. destruct (IH a) as [[W U]|(v & U & W)]; [cbn; auto| |].
  - left. split; [constructor; auto|exact U].
  - right. exists v. split; [exact U|constructor; auto].
Qed.
Lemma hollow_unparen : forall e, wraps e (NParen []) -> unparen e = Err IndexError.
Proof. intros e W. rewrite (wraps_unparen _ _ W). reflexivity. Qed.
Lemma rt_cases : forall n, (exists t, return_type n = Ok (Some t)) \/ (leads n (NParen []) /\ return_type n = Ok None)
  \/ (exists x, leads n x /\ is_sel x = true /\ return_type n = Err AttributeError).
Proof.
  induction n as [n IH] using node_ind'. destruct n; cbn [return_type]; eauto.
  - right. right. eexists. split; [constructor|auto].
  - destruct (IH n2) as [[t T]|[[L T]|(x & L & S & T)]]; [cbn; auto|eauto| |]; right; [left|right; exists x]; split; auto; constructor; auto.
  - destruct args as [|a r]; [right; left; split; [constructor|auto]|].
    destruct (IH a) as [[t T]|[[L T]|(x & L & S & T)]]; [cbn; auto|eauto| |]; right; [left|right; exists x]; split; auto; constructor; auto.
  - destruct (IH n) as [[t T]|[[L T]|(x & L & S & T)]]; [cbn; auto|eauto| |]; right; [left|right; exists x]; split; auto; constructor; auto.
Qed.
Lemma rt_query : forall n x, leads n x -> is_sel x = true -> return_type n = Err AttributeError.
Proof. intros n x L. induction L; intros S; cbn [return_type]; auto. destruct e; try discriminate S. reflexivity. Qed.
Lemma rt_unparen : forall e v, unparen e = Ok v -> return_type v = return_type e.
Proof.
  induction e as [e IH] using node_ind'. intros v U. destruct e; try (injection U as <-; reflexivity).
  destruct args as [|a r]; [discriminate U|]. cbn [unparen return_type] in *. apply IH; [cbn; auto|auto].
Qed.
Lemma count_stuck : forall a b e es, (wraps e (NParen []) \/ exists x, leads e x /\ is_sel x = true) -> count_errors a b e <> Ok es.
Proof.
  intros a b e es H C. unfold count_errors in C. destruct H as [W|(x & L & S)]; [rewrite (hollow_unparen _ W) in C; discriminate C|].
  destruct (unparen e) as [v|y] eqn:U; [|discriminate C]. cbn [rbind] in C. rewrite (rt_unparen _ _ U), (rt_query _ _ L S) in C. discriminate C.
Qed.
Lemma count_answers : forall a b e, (exists es, count_errors a b e = Ok es) \/ wraps e (NParen []) \/ exists x, leads e x /\ is_sel x = true.
Proof.
  intros a b e. unfold count_errors. destruct (unparen_cases e) as [[W _]|(v & U & W)]; [auto|]. rewrite U. cbn [rbind].
  destruct (rt_cases v) as [[t ->]|[[_ ->]|(x & L & S & _)]]; cbn [rbind]; [left; destruct v; eauto|left; destruct v; eauto|].
  right. right. exists x. split; auto. eapply wraps_leads; eauto.
Qed.
Lemma stuck_raises : forall x, stuck x -> forall ord K es, validate ord K x <> Ok es.
Proof.
  intros x S ord K es V. destruct S;
    try (apply select_parts in V as (K1 & e1 & e2 & e3 & e4 & e5 & e6 & e7 & e8 & H0' & H1' & H2' & H3' & H4' & H5' & H6' & H7' & H8' & ->)).
  - cbn in V. inv_bind V. discriminate V.
  - discriminate H7'.
  - cbn [ropt snd] in H7'. eapply count_stuck; eauto.
  - cbn [ropt] in H8'. eapply count_stuck; eauto.
  - cbn [ropt fst] in H4'. destruct (rconcat_each _ _ _ _ H4' H) as [ex Ex]. unfold group_arg_errors in Ex. rewrite (hollow_unparen _ H0) in Ex. discriminate Ex.
  - cbn [ropt] in H6'. destruct (rconcat_each _ _ _ _ H6' H) as [ex Ex]. cbn beta iota in Ex. unfold order_item_errors in Ex. rewrite (hollow_unparen _ H0) in Ex. discriminate Ex.
  - cbn in V. inv_bind V. inv_bind V. inv_bind V. destruct (rconcat_each _ _ _ _ Hb1 H) as [ex Ex]. cbn beta iota in Ex. unfold order_item_errors in Ex.
    rewrite (wraps_unparen _ _ H0) in Ex. cbn [unparen rbind] in Ex. destruct (Z.leb_spec z 0); [lia|discriminate Ex].
  - cbn in V. inv_bind V. inv_bind V. inv_bind V. destruct (rconcat_each _ _ _ _ Hb1 H) as [ex Ex]. cbn beta iota in Ex. unfold order_item_errors in Ex. rewrite (hollow_unparen _ H0) in Ex. discriminate Ex.
Qed.

(** ** Otherwise validation answers *)
Definition ans (B : Prop) {A} (r : R A) : Prop := (exists a, r = Ok a) \/ B.
Lemma ans_rmap : forall B {A C} (f : A -> R C) l, (forall x, In x l -> ans B (f x)) -> ans B (rmap f l).
Proof.
  intros B A C f l. induction l as [|a l IH]; intros H; cbn [rmap]; [left; eauto|]. destruct (H a) as [(b & ->)|X]; [left; auto| |right; auto]. cbn [rbind].
  destruct IH as [(bs & ->)|X]; [intros x I; apply H; right; auto| |right; auto]. left. cbn. eauto.
Qed.
Lemma ans_rconcat : forall B {A} (f : A -> R (list str)) l, (forall x, In x l -> ans B (f x)) -> ans B (rconcat f l).
Proof. intros B A f l H. unfold rconcat. destruct (ans_rmap B f l H) as [(x & ->)|X]; [left; cbn; eauto|right; auto]. Qed.
Lemma ans_ropt : forall B {A} (f : A -> R (list str)) o, (forall x, o = Some x -> ans B (f x)) -> ans B (ropt f o).
Proof. intros B A f [a|] H; [apply H; auto|left; cbn; eauto]. Qed.

Section Root.
  Variable root : node.
  Variable ord : fields -> fields.
  Hypothesis Sn : settled_names root.
  Hypothesis Ord : is_order ord.
  Definition good_fields (known : fields) : Prop := NoDup known /\ forall x, In x known -> snd x <> None /\ looked_field x root.
  Lemma good_nil : good_fields [].
  Proof. split; [constructor|intros x []]. Qed.
  Lemma visible_good : forall n f known, looked n root -> from_of n = Some f -> wf Fr f = true -> good_fields known ->
    exists K, visible known (Some f) = Ok K /\ good_fields K.
  Proof.
    intros n f known O E W [N F]. cbn [visible]. destruct (sn_alias _ Sn n f O E) as [E0 E1].
    assert (S : settled typed_fields (known_fields f)) by (apply known_ok; [rewrite W; auto|exact E0|exact E1]).
    destruct S as [(fs & Kf & T)|Kf]; rewrite Kf; [|exists known; split; [reflexivity|split; auto]].
    eexists. split; [reflexivity|]. split; [apply funion_NoDup; auto|]. intros x I. apply funion_In in I as [I|I]; auto. split; [apply T; auto|].
    exists n, f, fs. auto.
  Qed.
  Lemma bool_good : forall who e s known, looked s root -> tested e s -> wf Ex e = true -> good_fields known ->
    exists es, bool_errors ord who e known = Ok es.
  Proof.
    intros who e s known O J W [_ F].
    assert (RT : exists t, return_type e = Ok (Some t)).
    { destruct (rt_cases e) as [T|[[L T]|(x & L & S & T)]]; auto; exfalso; destruct (sn_tested _ Sn e s _ O J L) as [A B]; congruence. }
    destruct RT as (t & T).
    assert (X : exists t, resolve ord e known = Ok (Some t)).
    { unfold resolve. destruct (is_select e) eqn:S; [destruct e; try discriminate S; discriminate W|].
      destruct (ord known) as [|a l] eqn:Ek; [eauto|].
      destruct (good_all e) as (G & _). destruct (G W) as ((u & U & _) & _). rewrite U. cbn [rbind].
      destruct (filter (fun f : str * option ty => str_eqb (fst f) u) (a :: l)) as [|f r] eqn:Fi; [eauto|].
      assert (In f (a :: l)) by (apply (proj1 (filter_In (fun f : str * option ty => str_eqb (fst f) u) f (a :: l))); rewrite Fi; left; auto).
      rewrite <- Ek in H. eapply Permutation_in in H; [|apply Ord]. destruct (F f H) as (Z & _). destruct (snd f); [eauto|destruct Z; auto]. }
    destruct X as (t' & X). unfold bool_errors. rewrite X. cbn [rbind]. destruct t'; eauto.
  Qed.
  Lemma match_good : forall v s known, looked s root -> grouped v s -> good_fields known -> fmatching v known = [] \/ exists x, fmatching v known = [x].
  Proof.
    intros v s known O G [N F]. change (fmatching v known) with (filter (fun f : field => str_eqb (unqualified (fst f)) v) known).
    assert (N' : NoDup (filter (fun f : field => str_eqb (unqualified (fst f)) v) known)) by (apply NoDup_filter; auto).
    assert (A : forall x, In x (filter (fun f : field => str_eqb (unqualified (fst f)) v) known) -> looked_field x root /\ unqualified (fst x) = v).
    { intros x I. apply filter_In in I as [I E]. apply str_eqb_eq in E. split; auto. apply F; auto. }
    destruct (filter (fun f : field => str_eqb (unqualified (fst f)) v) known) as [|x [|y r]]; eauto. exfalso.
    destruct (A x) as (Sx & Ux); [left; auto|]. destruct (A y) as (Sy & Uy); [right; left; auto|].
    assert (x = y) by (eapply (sn_group _ Sn); eauto). subst. inversion N'; subst. apply H1. left; auto.
  Qed.
  Lemma group_good : forall s exprs a d don f w args ru ea h o l off semi arg known, s = NSelect exprs a d don f w (Some (args, ru, ea)) h o l off semi ->
    looked s root -> In arg args -> good_fields known -> ans (wraps arg (NParen [])) (group_arg_errors known exprs arg).
  Proof.
    intros s exprs a d don f w args ru ea h o l off semi arg known E O I F.
    destruct (unparen_cases arg) as [[W _]|(v & U & W)]; [right; auto|]. left. unfold group_arg_errors. rewrite U. cbn [rbind].
    assert (M : forall x, (wraps arg (NColumn x) \/ exists q p, wraps arg (NString x q p)) -> fmatching x known = [] \/ exists y, fmatching x known = [y]).
    { intros x X. eapply match_good; [exact O| |exact F]. subst s. repeat eexists; eauto. }
    destruct v; eauto.
    - destruct (M v) as [-> |(y & -> )]; [auto| |]; destruct (_ && _); eauto.
    - destruct (M v) as [-> |(y & -> )]; [eauto| |]; destruct (_ && _); eauto.
    - destruct (_ || _); eauto.
  Qed.
  Definition below (c n : node) : Prop := part c n \/ validated_in c n \/ from_of n = Some c.
  Lemma below_looked : forall x c n, looked x c -> below c n -> looked x n.
  Proof. intros x c n L [P|[P|P]]; [eapply lk_part|eapply lk_clause|eapply lk_from]; eauto. Qed.
  Definition shaped (n : node) : bool := wf Ex n || wf St n || wf Fr n || is_sel n && wf St (with_semi false n).
  Lemma shaped_ex : forall n, wf Ex n = true -> shaped n = true.
  Proof. intros n H. unfold shaped. rewrite H. auto. Qed.
  Lemma shaped_st : forall n, wf St n = true -> shaped n = true.
  Proof. intros n H. unfold shaped. rewrite H, orb_true_r. auto. Qed.
  Lemma shaped_fr : forall n, wf Fr n = true -> shaped n = true.
  Proof. intros n H. unfold shaped. rewrite H, orb_true_r. auto. Qed.
  Lemma shaped_sel : forall n, shaped n = true -> is_sel n = true -> wf St (with_semi false n) = true.
  Proof.
    intros n H S. unfold shaped in H. rewrite S in H. destruct (wf St (with_semi false n)) eqn:E; auto. destruct n; try discriminate S.
    destruct semi; [|cbn [with_semi] in E; rewrite E in H; discriminate H]. rewrite wf_select in H. rewrite !andb_false_r in H. discriminate H.
  Qed.
  Lemma order_good : forall B count e rest, (forall z, wraps e (NInt z) -> (0 < z)%Z -> count <> None \/ B) -> (wraps e (NParen []) -> B) ->
    ((forall z, ~ wraps e (NInt z)) -> ans B rest) -> ans B (order_item_errors count e rest).
  Proof.
    intros B count e rest Z H0 Rs. unfold order_item_errors. destruct (unparen_cases e) as [[W _]|(v & U & W)]; [right; auto|]. rewrite U. cbn [rbind].
    assert (D : (exists z, v = NInt z) \/ forall z, v <> NInt z) by (destruct v; try (right; discriminate); left; eauto).
    destruct D as [[z ->]|D].
    - destruct (Z.leb_spec z 0); [left; eauto|]. destruct (Z z W ltac:(assumption)) as [X|X]; [|right; auto]. destruct count; [left; eauto|destruct X; auto].
    - assert (NI : forall z, ~ wraps e (NInt z)).
      { intros z X. apply wraps_unparen in X. rewrite U in X. cbn in X. injection X as X. eapply D; eauto. }
      specialize (Rs NI). destruct v; auto. destruct (D z eq_refl).
  Qed.

  Ltac got H := destruct H as [(? & ->)|?]; [|right; assumption].
  Lemma validates_or : forall n, looked n root -> shaped n = true -> forall known, good_fields known -> ans (exists x, looked x n /\ stuck x) (validate ord known n).
  Proof.
    induction n as [n H] using node_inside_ind. intros O W known F.
    assert (X : forall c, inside c n -> below c n -> shaped c = true -> forall known, good_fields known -> ans (exists x, looked x n /\ stuck x) (validate ord known c)).
    { intros c I Bl Wc k Fk. destruct (H c I) with (known := k) as [A|(x & L & S)]; auto; [eapply looked_trans; [|exact O]; eapply below_looked; [constructor|auto]|left; auto|].
      right. exists x. split; auto. eapply below_looked; eauto. }
    clear H.
    assert (HERE : stuck n -> exists x, looked x n /\ stuck x) by (intros S; exists n; split; [constructor|auto]).
    assert (XE : forall c, In c (children n) -> below c n -> wf Ex c = true -> forall known, good_fields known -> ans (exists x, looked x n /\ stuck x) (validate ord known c)).
    { intros c I Bl Wc. apply X; auto; [apply inside_child; auto|apply shaped_ex; auto]. }
    assert (XA : forall l, (forall c, In c l -> In c (children n) /\ below c n) -> forallb argok l = true -> ans (exists x, looked x n /\ stuck x) (rconcat (validate ord known) l)).
    { intros l I A. apply ans_rconcat. intros x Ix. rewrite forallb_forall in A. specialize (A x Ix). unfold argok in A. destruct (I x Ix).
      apply X; auto; [apply inside_child; auto|]. destruct (is_sel x); bools; [apply shaped_st|apply shaped_ex]; auto. }
    assert (WE : match n with NSelect _ _ _ _ _ _ _ _ _ _ _ _ | NParen _ | NAlias _ _ _ | NJoin _ _ _ _ _ => True
                 | NWith _ _ | NTable _ _ | NUnnest _ _ _ _ | NCombined _ _ _ => True | _ => wf Ex n = true end).
    { unfold shaped in W. destruct n; auto; destruct (wf Ex _) eqn:E; auto. }
    destruct n; try (left; exists []; reflexivity).
    - (* SELECT *) clear WE XA. apply shaped_sel in W; auto. cbn [with_semi] in W. rewrite wf_select in W. bools.
      set (B := exists x, looked x _ /\ stuck x) in *.
      assert (V : exists K, visible known from_ = Ok K /\ good_fields K).
      { destruct from_ as [f|]; [|exists known; split; [reflexivity|auto]]. cbn [oall] in *. eapply visible_good; [exact O|reflexivity|assumption|assumption]. }
      destruct V as (K & V & FK).
      assert (E1 : ans B (rconcat (validate ord K) exprs)).
      { apply ans_rconcat. intros x I. match goal with U : forallb (upto 7) exprs = true |- _ => rewrite forallb_forall in U; pose proof (U x I) as Ux end.
        apply upto_and in Ux as [Ux _]. apply XE; auto; [cbn [children]; apply in_or_app; auto|right; left; constructor; auto]. }
      assert (E2 : ans B (ropt (validate ord []) from_)).
      { apply ans_ropt. intros x ->. cbn [oall] in *. apply X; [apply inside_child; kid|right; right; reflexivity|apply shaped_fr; assumption|apply good_nil]. }
      assert (EC : forall who x, In x (children (NSelect exprs sel_all sel_distinct distinct_on from_ where_ group having order limit offset semi)) ->
        validated_in x (NSelect exprs sel_all sel_distinct distinct_on from_ where_ group having order limit offset semi) ->
        tested x (NSelect exprs sel_all sel_distinct distinct_on from_ where_ group having order limit offset semi) -> condok x = true ->
        ans B (a <- validate ord K x ;; b <- bool_errors ord who x K ;; Ok (a ++ b))).
      { intros who x I Vx J C. unfold condok in C. bools. destruct (XE x I (or_intror (or_introl Vx)) ltac:(assumption) K FK) as [(a & ->)|Bx]; [|right; exact Bx]. cbn [rbind].
        destruct (bool_good who x _ K O J ltac:(assumption) FK) as (b & ->). left. cbn. eauto. }
      assert (E3 : ans B (ropt (fun x => a <- validate ord K x ;; b <- bool_errors ord "WHERE" x K ;; Ok (a ++ b)) where_)).
      { apply ans_ropt. intros x ->. apply EC; [kid|apply vi_where|constructor|assumption]. }
      assert (E5 : ans B (ropt (fun x => a <- validate ord K x ;; b <- bool_errors ord "HAVING" x K ;; Ok (a ++ b)) having)).
      { apply ans_ropt. intros x ->. apply EC; [kid|apply vi_having|constructor|assumption]. }
      assert (E4 : ans B (ropt (fun g : list node * bool * bool => rconcat (group_arg_errors K exprs) (fst (fst g))) group)).
      { apply ans_ropt. intros [[args ru] ea] ->. cbn [fst]. apply ans_rconcat. intros x I.
        destruct (group_good _ _ _ _ _ _ _ _ _ _ _ _ _ _ _ _ K eq_refl O I FK) as [A|Wx]; [left; auto|right]. apply HERE. eapply sk_group; eauto. }
      assert (E6 : ans B (ropt (rconcat (fun i => match i with
                  | NOrderItem e _ _ => order_item_errors (Some (length exprs)) e (validate ord K e)
                  | _ => Err TypeError end)) order)).
      { apply ans_ropt. intros items ->. apply ans_rconcat. intros i I. cbn [oall] in *. unfold itemsok in *. bools.
        match goal with U : forallb itemok items = true |- _ => rewrite forallb_forall in U; pose proof (U i I) as Wi end.
        destruct i; try discriminate Wi. cbn [itemok] in Wi. bools. apply order_good.
        - intros z _ _. left. discriminate.
        - intros Wr. apply HERE. eapply sk_order; eauto.
        - intros NI. apply X; auto; [eapply inside_child2 with (d := NOrderItem i asc desc); [kid|cbn; auto]|right; left; eapply vi_order; eauto|apply shaped_ex; assumption]. }
      assert (E7 : ans B (ropt (fun l : bool * option node => match snd l with Some x => count_errors LIMIT_VAR LIMIT_NEG x | None => Err AttributeError end) limit)).
      { apply ans_ropt. intros [b [x|]] ->; cbn [snd].
        - destruct (count_answers LIMIT_VAR LIMIT_NEG x) as [A|A]; [left; auto|right]. apply HERE. apply sk_limit; auto.
        - right. apply HERE. apply sk_all. }
      assert (E8 : ans B (ropt (count_errors OFFSET_VAR OFFSET_NEG) offset)).
      { apply ans_ropt. intros x ->. destruct (count_answers OFFSET_VAR OFFSET_NEG x) as [A|A]; [left; auto|right]. apply HERE. apply sk_offset; auto. }
      clearbody B.
      destruct E1 as [[? ?]|?]; [|right; assumption]. destruct E2 as [[? ?]|?]; [|right; assumption]. destruct E3 as [[? ?]|?]; [|right; assumption]. destruct E4 as [[? ?]|?]; [|right; assumption].
      destruct E5 as [[? ?]|?]; [|right; assumption]. destruct E6 as [[? ?]|?]; [|right; assumption]. destruct E7 as [[? ?]|?]; [|right; assumption]. destruct E8 as [[? ?]|?]; [|right; assumption].
      left. eexists. eapply select_build; eauto.
    - (* call *) rewrite wf_fun in WE. bools. apply XA; auto. intros c I. split; [kid|left; constructor; auto].
    - (* CAST *) right. apply HERE. constructor.
    - (* COUNT *) rewrite wf_count in WE. bools. apply XA; auto. intros c I. split; [kid|left; constructor; auto].
    - (* ARRAY_AGG *) rewrite wf_arrayagg in WE. bools. cbn [validate]. apply XE; [kid|left; constructor|assumption|assumption].
    - (* FILTER *) rewrite wf_filtered in WE. bools. cbn [validate].
      got (XE n1 ltac:(kid) (or_introl (pt_filter_f _ _)) ltac:(assumption) known F).
      got (XE n2 ltac:(kid) (or_introl (pt_filter_c _ _)) ltac:(assumption) known F). left. cbn. eauto.
    - (* OVER *) rewrite wf_analytics in WE. bools. cbn [validate]. got (XE n ltac:(kid) (or_introl (pt_over_f _ _ _ _)) ltac:(assumption) known F). cbn [rbind].
      assert (E1 : ans (exists x, looked x (NAnalytics n partition order frame) /\ stuck x) (ropt (rconcat (validate ord known)) partition)).
      { apply ans_ropt. intros l ->. apply ans_rconcat. intros y I. cbn [oall] in *. bools. match goal with U : forallb (upto 4) l = true |- _ => rewrite forallb_forall in U; pose proof (U y I) as Wx end.
        apply upto_and in Wx as [Wx _]. apply XE; auto; [kid|left; constructor; auto]. }
      assert (E2 : ans (exists x, looked x (NAnalytics n partition order frame) /\ stuck x) (ropt (rconcat (fun i => match i with
                 | NOrderItem e _ _ => order_item_errors None e (validate ord known e)
                 | _ => Err TypeError end)) order)).
      { apply ans_ropt. intros items ->. apply ans_rconcat. intros i I. cbn [oall] in *. unfold itemsok in *. bools.
        match goal with U : forallb itemok items = true |- _ => rewrite forallb_forall in U; pose proof (U i I) as Wi end.
        destruct i; try discriminate Wi. cbn [itemok] in Wi. bools. apply order_good.
        - intros z Wr Z0. right. apply HERE. eapply sk_over; eauto.
        - intros Wr. apply HERE. eapply sk_over_empty; eauto.
        - intros NI. apply X; auto; [apply (inside_child2 _ (NOrderItem i asc desc)); [kid|left; reflexivity]|left; eapply pt_over_o; eauto|apply shaped_ex; assumption]. }
      got E1. got E2. left. cbn. eauto.
    - (* column *) left. cbn. eauto.
    - (* dotted *) left. rewrite wf_chained in WE. bools. cbn [validate]. unfold chained_errors.
      destruct (good_all n1) as (G1 & _). destruct (G1 ltac:(assumption)) as ((u1 & -> & _) & _). cbn [rbind].
      destruct (good_all n2) as (G2 & _). destruct (G2 ltac:(assumption)) as ((u2 & U2 & _) & _). rewrite U2. cbn [rbind].
      rewrite render_str, U2; [|assumption|]; [cbn [rbind]; destruct (_ && _); eauto|].
      match goal with U : _ || _ = true |- _ => apply orb_true_iff in U as [U|U]; [apply Nat.leb_le in U; lia|destruct n2; try discriminate U; cbn; destruct n2; lia] end.
    - (* parentheses *) destruct (wf Ex (NParen args)) eqn:E; [rewrite wf_paren in E; apply XA; auto; intros c I; split; [kid|left; constructor; auto]|].
      assert (E' : wf Fr (NParen args) = true) by (unfold shaped in W; rewrite E in W; destruct (wf Fr (NParen args)); [auto|discriminate W]). clear W E.
      destruct args as [|a [|b r]]; try discriminate E'. change (wf Fr (NParen [a])) with (if is_sel a || is_wth a then wf St a else wf Fr a) in E'.
      cbn [validate]. apply ans_rconcat. intros x [<-|[]]. apply X; auto; [apply inside_child; kid|left; constructor; left; auto|].
      destruct (is_sel a || is_wth a); [apply shaped_st|apply shaped_fr]; auto.
    - (* alias *) cbn [validate]. destruct (wf Ex (NAlias n alias with_as)) eqn:E; [rewrite wf_alias in E; bools; apply XE; auto; [kid|left; constructor]|].
      assert (E' : wf Fr (NAlias n alias with_as) = true) by (unfold shaped in W; rewrite E in W; destruct (wf Fr (NAlias n alias with_as)); [auto|discriminate W]). clear W E.
      rewrite wf_falias in E'. bools. apply X; auto; [apply inside_child; kid|left; constructor|apply shaped_fr; assumption].
    - (* join *) left. cbn. eauto.
    - (* comparison *) rewrite wf_cond in WE. bools. cbn [validate]. got (XE n1 ltac:(kid) (or_introl (pt_cond_l _ _ _)) ltac:(assumption) known F). cbn [rbind].
      destruct (str_eqb (lower pred) "between") eqn:Bt.
      + apply str_eqb_eq in Bt. destruct n2; try discriminate. bools.
        assert (Y : forall c, In c [n2_1; n2_2] -> wf Ex c = true -> ans (exists x, looked x (NCond n1 pred (NBoolC ty n2_1 n2_2)) /\ stuck x) (validate ord known c)).
        { intros c I Wc. apply X; auto; [apply (inside_child2 _ (NBoolC ty n2_1 n2_2)); [kid|exact I]| |apply shaped_ex; auto].
          left. destruct I as [<-|[<-|[]]]; [apply pt_between_l|apply pt_between_r]; auto. }
        got (Y n2_1 ltac:(cbn; auto) ltac:(assumption)). got (Y n2_2 ltac:(cbn; auto) ltac:(assumption)). left. cbn. eauto.
      + apply str_eqb_neq in Bt. bools. got (XE n2 ltac:(kid) (or_introl (pt_cond_r _ _ _ Bt)) ltac:(assumption) known F). left. cbn. eauto.
    - (* AND, OR *) rewrite wf_boolc in WE. bools. cbn [validate].
      got (XE n1 ltac:(kid) (or_introl (pt_bool_l _ _ _)) ltac:(assumption) known F). cbn [rbind].
      destruct (bool_good (upper ty) n1 (NBoolC ty n1 n2) known O) as (a' & ->); [constructor|assumption|assumption|]. cbn [rbind].
      got (XE n2 ltac:(kid) (or_introl (pt_bool_r _ _ _)) ltac:(assumption) known F). cbn [rbind].
      destruct (bool_good (upper ty) n2 (NBoolC ty n1 n2) known O) as (b' & ->); [constructor|assumption|assumption|]. left. cbn. eauto.
    - (* REPLACE *) rewrite wf_replace in WE. bools. cbn [validate]. apply ans_rconcat. intros x I.
      match goal with U : forallb argok args = true, U' : forallb as_alias args = true |- _ => rewrite forallb_forall in U, U'; pose proof (U x I) as A; pose proof (U' x I) as B end.
      destruct x; try discriminate B. destruct with_as; try discriminate B. unfold argok in A. cbn [is_sel] in A. bools.
      match goal with U : wf Ex (NAlias _ _ _) = true |- _ => rewrite wf_alias in U end. bools. cbn [aliasok] in *. destruct alias as [t|y]; [discriminate|]. bools.
      apply X; auto; [eapply inside_child2 with (d := NAlias x (inr y) true); [kid|cbn; auto]|left; eapply pt_replace; eauto|apply shaped_ex; assumption].
  Qed.
End Root.

Lemma stuck_is_valid : forall q n x ord, parse_sql q = Ok n -> is_sel n = true -> looked x n -> stuck x -> exists e, fst (q_is_valid ord (new_query q)) = Err e.
Proof.
  intros q n x ord P S L K. destruct (validate ord [] n) as [es|e] eqn:V.
  - exfalso. destruct (looked_errors _ _ L _ _ _ V) as (K' & es' & E & _). eapply stuck_raises; eauto.
  - exists e. pose proof (validate_exn ord n []) as X. rewrite V in X. unfold q_is_valid, q_validate, get_ast, new_query. cbn [q_validated q_ast q_sql q_errors].
    rewrite P. destruct n; try discriminate S. cbn [rbind validate_top]. rewrite V. cbn in X. destruct e; try reflexivity. exfalso. clear -X. cbn in X. intuition discriminate.
Qed.
Lemma raises_exactly : forall q n ord, is_order ord -> parse_sql q = Ok n -> is_sel n = true -> statement n = true -> settled_names n ->
  ((exists e, fst (q_is_valid ord (new_query q)) = Err e) <-> exists x, looked x n /\ stuck x).
Proof.
  intros q n ord O P S W A. split.
  - intros (e & E). assert (Sh : shaped n = true) by (unfold shaped; rewrite S; unfold statement in W; rewrite W; apply orb_true_r).
    destruct (validates_or n ord A O n (lk_here n) Sh [] (good_nil n)) as [(es & V)|B]; [|exact B].
    exfalso. rewrite (errors_is_valid q ord es) in E; [discriminate E|]. unfold errors_of. rewrite P. cbn [rbind]. destruct n; try discriminate S. exact V.
  - intros (x & L & K). eapply stuck_is_valid; eauto.
Qed.

(** ** A decision procedure, for examples *)
Lemma looked_occurs : forall x n, looked x n -> occurs x n.
Proof.
  intros x n L. induction L as [|a n P L IH|e n P L IH|f n P L IH].
  - constructor.
  - eapply occurs_trans; [exact IH|]. destruct P;
      try (match goal with |- occurs _ ?n => eapply occurs_in; [|constructor]; kid end; fail);
      apply inside_occurs.
    + eapply inside_child2 with (d := NOrderItem a asc desc); [kid|cbn; auto].
    + eapply inside_child2 with (d := NBoolC ty a y); [kid|cbn; auto].
    + eapply inside_child2 with (d := NBoolC ty x0 a); [kid|cbn; auto].
    + eapply inside_child2 with (d := NAlias x0 (inr a) w); [kid|cbn; auto].
  - eapply occurs_trans; [exact IH|]. destruct P;
      try (eapply occurs_in; [|constructor]; kid; fail).
    apply inside_occurs. eapply inside_child2 with (d := NOrderItem e asc desc); [kid|cbn; auto].
  - eapply occurs_trans; [exact IH|]. destruct n; try discriminate P. cbn [from_of] in P. subst from_. eapply occurs_in; [|constructor]. kid.
Qed.
Fixpoint firm (e : node) : bool :=
  match e with
  | NSelect _ _ _ _ _ _ _ _ _ _ _ _ | NParen [] => false
  | NParen (a :: _) => firm a | NAlias e _ _ => firm e | NChained _ r => firm r
  | _ => true
  end.
Lemma firm_ok : forall e x, leads e x -> firm e = true -> is_sel x = false /\ x <> NParen [].
Proof. intros e x L. induction L; auto. intros F. split; [destruct e; auto|intros ->; discriminate F]. Qed.
Definition tested_in (s : node) : list node :=
  match s with
  | NSelect _ _ _ _ _ w _ h _ _ _ _ => olist w ++ olist h
  | NBoolC _ l r => [l; r]
  | _ => []
  end.
Lemma tested_in_ok : forall e s, tested e s -> In e (tested_in s).
Proof. intros e s J. destruct J; cbn [tested_in]; rewrite ?in_app_iff; cbn; auto. Qed.
Definition settledb (n : node) : bool :=
  forallb (fun s => forallb firm (tested_in s)
     && match from_of s with
        | Some f => forallb (fun a => match a with NParen [] | NAlias _ (inr (NString _ _ _)) _ => false | _ => true end) (all_parts f)
        | None => true end) (all_parts n)
  && forallb (fun v => forallb (fun x => forallb (fun y => field_eqb x y) (fmatching v (fields_in n))) (fmatching v (fields_in n)))
       (flat_map grouped_in (all_parts n)).
Lemma settledb_ok : forall n, settledb n = true -> settled_names n.
Proof.
  intros n H. unfold settledb in H. apply andb_true_iff in H as [H G]. rewrite forallb_forall in H, G.
  assert (SF : forall x, looked_field x n -> some_field x n).
  { intros x (s & f & fs & O & R). exists s, f, fs. split; [apply looked_occurs; auto|auto]. }
  split.
  - intros e s x O J L. apply looked_occurs in O. apply parts_ok with (k := size n) in O; auto. apply H in O. apply andb_true_iff in O as [O _]. rewrite forallb_forall in O.
    eapply firm_ok; [exact L|]. apply O, tested_in_ok; auto.
  - intros s f O E. apply looked_occurs in O. apply parts_ok with (k := size n) in O; auto. apply H in O. apply andb_true_iff in O as [_ O]. rewrite E, forallb_forall in O. split.
    + intros X. apply parts_ok with (k := size f) in X; auto. apply O in X. discriminate X.
    + intros e w v q p X. apply parts_ok with (k := size f) in X; auto. apply O in X. discriminate X.
  - intros v s x y O Gr Fx Fy Ux Uy. apply SF, fields_in_ok in Fx. apply SF, fields_in_ok in Fy. apply looked_occurs in O.
    assert (I : In v (flat_map grouped_in (all_parts n))) by (apply in_flat_map; exists s; split; [apply parts_ok; auto|apply grouped_in_ok; auto]).
    apply G in I. rewrite forallb_forall in I.
    assert (M : forall z, In z (fields_in n) -> unqualified (fst z) = v -> In z (fmatching v (fields_in n))).
    { intros z Iz Uz. apply filter_In. split; auto. rewrite Uz. apply str_eqb_refl. }
    specialize (I x (M x Fx Ux)). rewrite forallb_forall in I. apply field_eqb_eq. apply I. auto.
Qed.
Fixpoint hollow (e : node) : bool := match e with NParen [] => true | NParen (a :: _) => hollow a | _ => false end.
Lemma hollow_ok : forall e x, wraps e x -> x = NParen [] -> hollow e = true.
Proof. intros e x W. induction W; intros ->; auto. Qed.
Definition number (e : node) : bool := match unparen e with Ok (NInt _) => true | _ => false end.
Lemma number_ok : forall e z, wraps e (NInt z) -> number e = true.
Proof. intros e z W. unfold number. rewrite (wraps_unparen _ _ W). reflexivity. Qed.
Definition in_item (f : node -> bool) (i : node) : bool := match i with NOrderItem e _ _ => f e | _ => false end.
Definition stuckb (x : node) : bool :=
  match x with
  | NCast _ _ | NSelect _ _ _ _ _ _ _ _ _ (Some (_, None)) _ _ => true
  | NSelect _ _ _ _ _ _ g _ o l off _ =>
    match l with Some (_, Some e) => hollow e || negb (no_lead e) | _ => false end
    || match off with Some e => hollow e || negb (no_lead e) | None => false end
    || match g with Some (args, _, _) => existsb hollow args | None => false end
    || match o with Some items => existsb (in_item hollow) items | None => false end
  | NAnalytics _ _ (Some o) _ => existsb (in_item number) o || existsb (in_item hollow) o
  | _ => false
  end.
Lemma not_count : forall e, (wraps e (NParen []) \/ exists x, leads e x /\ is_sel x = true) -> hollow e || negb (no_lead e) = true.
Proof.
  intros e [W|(x & L & S)]; [rewrite (hollow_ok _ _ W eq_refl); auto|]. destruct (no_lead e) eqn:N; [|apply orb_true_r].
  rewrite (no_lead_ok _ _ L N) in S. discriminate S.
Qed.
Lemma stuckb_ok : forall x, stuck x -> stuckb x = true.
Proof.
  intros x S. destruct S; cbn [stuckb]; auto.
  - rewrite (not_count _ H). auto.
  - rewrite (not_count _ H), orb_true_r. destruct l as [[b [y|]]|]; auto.
  - assert (X : existsb hollow args = true) by (apply existsb_exists; exists e; split; auto; eapply hollow_ok; eauto). rewrite X, orb_true_r. destruct l as [[b [y|]]|]; auto.
  - assert (X : existsb (in_item hollow) items = true) by (apply existsb_exists; eexists; split; [exact H|]; cbn; eapply hollow_ok; eauto). rewrite X, orb_true_r. destruct l as [[b [y|]]|]; auto.
  - apply orb_true_iff. left. apply existsb_exists. eexists. split; [exact H|]. cbn. eapply number_ok; eauto.
  - apply orb_true_iff. right. apply existsb_exists. eexists. split; [exact H|]. cbn. eapply hollow_ok; eauto.
Qed.
Lemma none_stuck : forall n, forallb (fun x => negb (stuckb x)) (all_parts n) = true -> ~ exists x, looked x n /\ stuck x.
Proof.
  intros n H (x & L & S). rewrite forallb_forall in H. apply looked_occurs in L. apply parts_ok with (k := size n) in L; auto. apply H in L. rewrite (stuckb_ok _ S) in L. discriminate L.
Qed.
