(** is_valid() answers for the answerable statements of the fragment. *)
From Coq Require Import Permutation.
From Verif Require Import PyStr Lib Ast AstLib Render Validate Api Grammar GramTok GramText GramPrint SpecVal SpecAnswer SpecApi ProofVal ProofApi.
Local Open Scope str_scope.
Local Open Scope list_scope.

Ltac kid := cbn [children olist ollist]; chi.
Lemma occ_child : forall m c n, In c (children n) -> ~ occurs m n -> ~ occurs m c.
Proof. intros m c n I H O. apply H. econstructor; eauto. Qed.

Lemma rt_spec : forall n, ~ occurs (NParen []) n ->
  (exists t, return_type n = Ok (Some t)) \/ (exists x, leads n x /\ is_sel x = true /\ return_type n = Err AttributeError).
Proof.
  induction n using node_ind'. intros E.
  assert (X : forall c, In c (children n) -> (exists t, return_type c = Ok (Some t)) \/ (exists x, leads c x /\ is_sel x = true /\ return_type c = Err AttributeError)).
  { intros c I. apply H; auto. eapply occ_child; eauto. }
  clear H. destruct n; cbn [return_type]; eauto.
  - right. eexists. split; [constructor|auto].
  - destruct (X n2) as [(t & ->)|(x & L & S & ->)]; [cbn; auto|eauto|]. right. exists x. split; [constructor; auto|auto].
  - destruct args as [|a r]; [destruct E; constructor|]. destruct (X a) as [(t & ->)|(x & L & S & ->)]; [cbn; auto|eauto|].
    right. exists x. split; [constructor; auto|auto].
  - destruct (X n) as [(t & ->)|(x & L & S & ->)]; [cbn; auto|eauto|]. right. exists x. split; [constructor; auto|auto].
Qed.
Lemma rt_judged : forall n, ~ occurs (NParen []) n -> (forall x, leads n x -> is_sel x = false) -> exists t, return_type n = Ok (Some t).
Proof. intros n E L. destruct (rt_spec n E) as [T|(x & X & S & _)]; auto. rewrite (L x X) in S. discriminate. Qed.

Definition typed_fields (s : fields) : Prop := forall x, In x s -> snd x <> None.
Lemma typed_union : forall a b, typed_fields a -> typed_fields b -> typed_fields (funion a b).
Proof. intros a b A B x I. apply funion_In in I as [I|I]; [exact (A x I)|exact (B x I)]. Qed.
Lemma typed_set : forall a, typed_fields a -> typed_fields (fset a).
Proof. intros a A x I. exact (A x (proj1 (fset_In _ _) I)). Qed.
Lemma alias_typed : forall s fs, typed_fields fs -> exists gs, alias_fields (Ok s) fs = Ok gs /\ typed_fields gs.
Proof.
  intros s fs T. unfold alias_fields. destruct fs as [|f fs]; [exists []; split; auto; intros x []|].
  eexists. split; [reflexivity|]. apply typed_set. intros x I. apply in_map_iff in I as (y & <- & I). cbn. apply T. auto.
Qed.
Definition no_quoted_alias (f : node) : Prop := forall e w v q p, ~ occurs (NAlias e (inr (NString v q p)) w) f.
Definition settled {A} (P : A -> Prop) (r : R A) : Prop := (exists a, r = Ok a /\ P a) \/ r = Err AttributeError.
Lemma select_field_ok : forall e, upto 7 e = true -> ~ occurs (NParen []) e -> no_quoted_alias e -> settled typed_fields (select_field e).
Proof.
  intros e W E Q. apply upto_and in W as [W _]. destruct e; cbn [select_field]; try (left; exists []; split; [reflexivity|intros x []]).
  - left. eexists. split; [reflexivity|]. intros x [<-|[]]. discriminate.
  - destruct (rt_spec e) as [(t & T)|(x & _ & _ & T)]; [eapply occ_child; eauto; cbn; auto| |rewrite T; cbn; right; auto].
    rewrite T. cbn [rbind]. rewrite wf_alias in W. apply andb_true_iff in W as [_ W]. destruct alias as [s|a].
    + left. eexists. split; [reflexivity|]. intros x [<-|[]]. discriminate.
    + assert (N : is_str a = false).
      { destruct a; auto. exfalso. eapply Q. constructor. }
      unfold aliasok in W. destruct with_as; rewrite N in W; bools; try discriminate.
      rewrite orb_false_r in *. bools. destruct a; try discriminate. left. eexists. split; [reflexivity|]. intros x [<-|[]]. discriminate.
Qed.
Lemma rmap_settled : forall {A B} (P : B -> Prop) (f : A -> R B) l, (forall x, In x l -> settled P (f x)) -> settled (Forall P) (rmap f l).
Proof.
  intros A B P f l H. induction l as [|a l IH]; cbn [rmap]; [left; eauto|].
  destruct (H a) as [(b & -> & T)| -> ]; [left; auto| |right; auto]. cbn [rbind].
  destruct IH as [(bs & -> & Ts)| -> ]; [intros x I; apply H; right; auto| |right; auto]. left. eexists. split; [reflexivity|]. auto.
Qed.
Lemma typed_concat : forall l, Forall typed_fields l -> typed_fields (concat l).
Proof. intros l H x I. apply in_concat in I as (y & I & X). rewrite Forall_forall in H. exact (H y I x X). Qed.


Lemma known_ok : forall n, (wf Fr n || wf St n) = true -> ~ occurs (NParen []) n -> no_quoted_alias n -> settled typed_fields (known_fields n).
Proof.
  induction n as [n H] using node_inside_ind. intros W E Q.
  assert (X : forall c, inside c n -> (wf Fr c || wf St c) = true -> settled typed_fields (known_fields c)).
  { intros c I Wc. apply H; auto.
    - intros O. apply E. eapply occurs_trans; [exact O|]. apply inside_occurs; auto.
    - intros e w v q p O. eapply Q. eapply occurs_trans; [exact O|]. apply inside_occurs; auto. }
  clear H. destruct n; try (cbn [known_fields]; right; reflexivity).
  - assert (W' : wf St (NSelect exprs sel_all sel_distinct distinct_on from_ where_ group having order limit offset semi) = true) by exact W.
    clear W. rewrite wf_select in W'. bools. cbn [known_fields].
    assert (F : settled (Forall typed_fields) (rmap select_field exprs)).
    { apply rmap_settled. intros x I. apply select_field_ok.
      - match goal with U : forallb (upto 7) exprs = true |- _ => rewrite forallb_forall in U; auto end.
      - eapply occ_child; [|exact E]. cbn [children]. apply in_or_app; auto.
      - intros e w v q p O. eapply Q. eapply occurs_in; [|exact O]. cbn [children]. apply in_or_app; auto. }
    destruct F as [(fs & -> & T)| -> ]; [|right; reflexivity]. cbn [rbind].
    assert (TF : typed_fields (fset (concat fs))) by (apply typed_set, typed_concat; auto).
    destruct from_ as [f|]; [|left; eauto]. destruct f; try (left; eexists; split; [reflexivity|assumption]).
    destruct args as [|s rest]; [exfalso; apply E; apply (occurs_in _ (NParen [])); [kid|constructor]|].
    destruct s; try (left; eexists; split; [reflexivity|assumption]).
    match goal with |- context [known_fields ?s] => assert (S : settled typed_fields (known_fields s)) end.
    { apply X; [eapply inside_child2; [kid|cbn; auto]|]. apply orb_true_iff. right.
      match goal with U : oall (wf Fr) _ = true |- _ => cbn [oall] in U; destruct rest; [exact U|discriminate U] end. }
    destruct S as [(sub & -> & TS)| -> ]; [|right; reflexivity]. cbn [rbind].
    destruct (fnamed "*" (fset (concat fs)) && negb (fnamed "*" sub)); left; eexists; split; try reflexivity; auto.
    apply typed_union; auto. intros x I. apply filter_In in I as [I _]. exact (TF x I).
  - assert (W' : wf Fr (NParen args) = true) by (destruct (wf Fr (NParen args)); [auto|discriminate W]).
    clear W. destruct args as [|a [|b r]]; try discriminate W'. change (wf Fr (NParen [a])) with (if is_sel a || is_wth a then wf St a else wf Fr a) in W'.
    cbn [known_fields].
    destruct (X a) as [(fs & -> & T)| -> ]; [apply inside_child; cbn; auto|destruct (is_sel a || is_wth a); rewrite W', ?orb_true_r; auto| |].
    + left. eauto.
    + left. exists []. split; auto. intros x [].
  - assert (W' : wf Fr (NAlias n alias with_as) = true) by (destruct (wf Fr (NAlias n alias with_as)); [auto|discriminate W]).
    clear W. rewrite wf_falias in W'. bools. cbn [known_fields].
    destruct (X n) as [(fs & -> & T)| -> ]; [apply inside_child; cbn; auto|apply orb_true_iff; auto| |right; reflexivity]. cbn [rbind].
    destruct alias as [s|a]; [left; apply alias_typed; auto|]. exfalso. cbn [alsok] in *. bools. destruct a; try discriminate. eapply Q. constructor.
  - left. exists [star]. split; auto. intros x [<-|[]]. discriminate.
  - assert (W' : wf Fr (NJoin ty n1 n2 on_ using_) = true) by (destruct (wf Fr (NJoin ty n1 n2 on_ using_)); [auto|discriminate W]).
    clear W. rewrite wf_join in W'. bools. cbn [known_fields].
    assert (S : forall k, In k [n1; n2] -> wf Fr k = true -> settled typed_fields (match k with
           | NAlias e a _ =>
             fs <- known_fields e ;;
             alias_fields (match a with inl s => Ok s | inr _ => Err TypeError end) fs
           | _ => known_fields k
           end)).
    { intros k I Wk. assert (Ik : In k (children (NJoin ty n1 n2 on_ using_))) by (cbn [children]; destruct I as [<-|[<-|[]]]; cbn; auto).
      assert (Sk : settled typed_fields (known_fields k)) by (apply X; [apply inside_child; auto|rewrite Wk; auto]).
      destruct k; auto. rewrite wf_falias in Wk. bools. destruct alias as [s|a].
      - exact Sk.
      - exfalso. cbn [alsok] in *. bools. destruct a; try discriminate. eapply Q. eapply occurs_in; [exact Ik|constructor]. }
    destruct (S n1) as [(lf & -> & TL)| -> ]; [cbn; auto|auto| |right; reflexivity]. cbn [rbind].
    destruct (S n2) as [(rf & -> & TR)| -> ]; [cbn; auto|auto| |right; reflexivity]. cbn [rbind].
    left. eexists. split; [reflexivity|]. apply typed_union; auto.
Qed.

Lemma unparen_ok : forall e, ~ occurs (NParen []) e -> exists v, unparen e = Ok v /\ wraps e v /\ leads e v /\ occurs v e.
Proof.
  induction e as [e H] using node_ind'. intros E. destruct e; try (eexists; cbn; split; [reflexivity|split; [constructor|split; constructor]]).
  destruct args as [|a r]; [destruct E; constructor|].
  destruct (H a) as (v & U & W & L & O); [cbn; auto|eapply occ_child; [|exact E]; cbn; auto|].
  exists v. cbn [unparen]. split; auto. split; [constructor; auto|]. split; [constructor; auto|]. eapply occurs_in; [|exact O]. cbn; auto.
Qed.
Lemma rconcat_some : forall {A} (f : A -> R (list str)) l, (forall x, In x l -> exists es, f x = Ok es) -> exists es, rconcat f l = Ok es.
Proof.
  intros A f l H. unfold rconcat. assert (X : exists ls, rmap f l = Ok ls).
  { induction l as [|a l IH]; [exists []; auto|]. cbn [rmap]. destruct (H a) as (x & ->); [left; auto|]. destruct IH as (ls & ->); [intros; apply H; right; auto|]. cbn. eauto. }
  destruct X as (ls & ->). cbn. eauto.
Qed.
Lemma ropt_some : forall {A} (f : A -> R (list str)) o, (forall x, o = Some x -> exists es, f x = Ok es) -> exists es, ropt f o = Ok es.
Proof. intros A f [a|] H; [apply H; auto|exists []; auto]. Qed.
Lemma fadd_NoDup : forall f s, NoDup s -> NoDup (fadd f s).
Proof.
  intros f s N. unfold fadd. destruct (existsb (field_eqb f) s) eqn:E; auto.
  apply NoDup_app_snoc || idtac. clear -N E. induction s as [|a s IH]; cbn [app]; [constructor; [intros []|constructor]|].
  cbn in E. apply orb_false_iff in E as [E1 E2]. inversion N; subst. constructor; auto.
  intros I. apply in_app_or in I as [I|[<-|[]]]; auto. assert (X : field_eqb f f = true) by (apply field_eqb_eq; auto). congruence.
Qed.
Lemma funion_NoDup : forall b a, NoDup a -> NoDup (funion a b).
Proof. unfold funion. induction b as [|f b IH]; intros a N; cbn [fold_left]; auto. apply IH, fadd_NoDup; auto. Qed.

Section Root.
  Variable root : node.
  Variable ord : fields -> fields.
  Hypothesis An : answerable root.
  Hypothesis Ord : is_order ord.
  Definition fine (known : fields) : Prop := NoDup known /\ forall x, In x known -> snd x <> None /\ some_field x root.

  Lemma no_empty : forall n, occurs n root -> ~ occurs (NParen []) n.
  Proof. intros n O X. apply (an_empty _ An). eapply occurs_trans; eauto. Qed.
  Lemma fine_nil : fine [].
  Proof. split; [constructor|intros x []]. Qed.
  Lemma visible_fine : forall n known, occurs n root -> wf St n = true -> fine known -> exists K, visible known (from_of n) = Ok K /\ fine K.
  Proof.
    intros n known O W [N F]. destruct (from_of n) as [f|] eqn:E; [|exists known; split; [reflexivity|split; auto]]. cbn [visible].
    assert (If : In f (children n)).
    { destruct n; try discriminate E. cbn [from_of] in E. subst from_. kid. }
    assert (S : settled typed_fields (known_fields f)).
    { apply known_ok.
      - destruct n; try discriminate E. cbn [from_of] in E. subst from_. rewrite wf_select in W. bools. cbn [oall] in *. rewrite H7. auto.
      - apply no_empty. eapply occurs_trans; [|exact O]. eapply occurs_in; [exact If|constructor].
      - intros e w v q p X. eapply (an_alias _ An); eauto. }
    destruct S as [(fs & Kf & T)|Kf]; rewrite Kf; [|exists known; split; [reflexivity|split; auto]].
    eexists. split; [reflexivity|]. split; [apply funion_NoDup; auto|]. intros x I. apply funion_In in I as [I|I]; auto. split; [apply T; auto|].
    exists n, f, fs. auto.
  Qed.
  Lemma bool_ok : forall who e s known, occurs s root -> judged e s -> In e (children s) -> wf Ex e = true -> fine known ->
    exists es, bool_errors ord who e known = Ok es.
  Proof.
    intros who e s known O J I W [_ F].
    assert (Oe : occurs e root) by (eapply occurs_trans; [|exact O]; eapply occurs_in; [exact I|constructor]).
    destruct (rt_judged e) as (t & T); [apply no_empty; auto|intros x L; exact (an_judged _ An e s x O J L)|].
    assert (X : exists t, resolve ord e known = Ok (Some t)).
    { unfold resolve. destruct (is_select e) eqn:S; [destruct e; try discriminate S; discriminate W|].
      destruct (ord known) as [|a l] eqn:Ek; [eauto|].
      destruct (good_all e) as (G & _). destruct (G W) as ((u & U & _) & _). rewrite U. cbn [rbind].
      destruct (filter (fun f : str * option ty => str_eqb (fst f) u) (a :: l)) as [|f r] eqn:Fi; [eauto|].
      assert (In f (a :: l)) by (apply (proj1 (filter_In (fun f : str * option ty => str_eqb (fst f) u) f (a :: l))); rewrite Fi; left; auto).
      rewrite <- Ek in H. eapply Permutation_in in H; [|apply Ord]. destruct (F f H) as (Z & _). destruct (snd f); [eauto|destruct Z; auto]. }
    destruct X as (t' & X). unfold bool_errors. rewrite X. cbn [rbind]. destruct t'; eauto.
  Qed.
  Lemma count_ok : forall a b e s, occurs s root -> judged e s -> In e (children s) -> exists es, count_errors a b e = Ok es.
  Proof.
    intros a b e s O J I.
    assert (Oe : occurs e root) by (eapply occurs_trans; [|exact O]; eapply occurs_in; [exact I|constructor]).
    destruct (unparen_ok e) as (v & U & _ & L & Ov); [apply no_empty; auto|]. unfold count_errors. rewrite U. cbn [rbind].
    destruct (rt_judged v) as (t & ->).
    - apply no_empty. eapply occurs_trans; eauto.
    - intros x Lx. eapply (an_judged _ An); [exact O|exact J|]. clear - L Lx. induction L; auto; constructor; auto.
    - cbn [rbind]. destruct v; eauto.
  Qed.
  Lemma match_ok : forall v s known, occurs s root -> grouped v s -> fine known -> fmatching v known = [] \/ exists x, fmatching v known = [x].
  Proof.
    intros v s known O G [N F]. change (fmatching v known) with (filter (fun f : field => str_eqb (unqualified (fst f)) v) known).
    assert (N' : NoDup (filter (fun f : field => str_eqb (unqualified (fst f)) v) known)) by (apply NoDup_filter; auto).
    assert (A : forall x, In x (filter (fun f : field => str_eqb (unqualified (fst f)) v) known) -> some_field x root /\ unqualified (fst x) = v).
    { intros x I. apply filter_In in I as [I E]. apply str_eqb_eq in E. split; auto. apply F; auto. }
    destruct (filter (fun f : field => str_eqb (unqualified (fst f)) v) known) as [|x [|y r]]; eauto. exfalso.
    destruct (A x) as (Sx & Ux); [left; auto|]. destruct (A y) as (Sy & Uy); [right; left; auto|].
    assert (x = y) by (eapply (an_group _ An); eauto). subst. inversion N'; subst. apply H1. left; auto.
  Qed.
  Lemma group_ok : forall s exprs a d don f w args ru ea h o l off semi arg known, s = NSelect exprs a d don f w (Some (args, ru, ea)) h o l off semi ->
    occurs s root -> In arg args -> fine known -> exists es, group_arg_errors known exprs arg = Ok es.
  Proof.
    intros s exprs a d don f w args ru ea h o l off semi arg known E O I F.
    assert (Oe : occurs arg root).
    { eapply occurs_trans; [|exact O]. eapply occurs_in; [|constructor]. subst s. kid. }
    destruct (unparen_ok arg) as (v & U & W & _); [apply no_empty; auto|]. unfold group_arg_errors. rewrite U. cbn [rbind].
    assert (M : forall x, (wraps arg (NColumn x) \/ exists q p, wraps arg (NString x q p)) -> fmatching x known = [] \/ exists y, fmatching x known = [y]).
    { intros x X. eapply match_ok; [exact O| |exact F]. subst s. repeat eexists; eauto. }
    destruct v; eauto.
    - destruct (M v) as [-> |(y & -> )]; [auto| |]; destruct (_ && _); eauto.
    - destruct (M v) as [-> |(y & -> )]; [eauto| |]; destruct (_ && _); eauto.
    - destruct (_ || _); eauto.
  Qed.

  Lemma validates : forall n, occurs n root -> (wf Ex n || wf St n || wf Fr n) = true -> forall known, fine known -> exists es, validate ord known n = Ok es.
  Proof.
    induction n as [n H] using node_inside_ind. intros O W known F.
    assert (X : forall c, inside c n -> (wf Ex c || wf St c || wf Fr c) = true -> forall known, fine known -> exists es, validate ord known c = Ok es).
    { intros c I Wc k Fk. apply H; auto. eapply occurs_trans; [apply inside_occurs; exact I|exact O]. }
    clear H.
    assert (XE : forall c, In c (children n) -> wf Ex c = true -> forall known, fine known -> exists es, validate ord known c = Ok es).
    { intros c I Wc. apply X; [apply inside_child; auto|rewrite Wc; auto]. }
    assert (XA : forall l, (forall c, In c l -> In c (children n)) -> forallb argok l = true -> exists es, rconcat (validate ord known) l = Ok es).
    { intros l I A. apply rconcat_some. intros x Ix. rewrite forallb_forall in A. specialize (A x Ix). unfold argok in A.
      apply X; auto; [apply inside_child; auto|]. destruct (is_sel x); bools; rewrite H, ?orb_true_r; auto. }
    assert (WE : match n with NSelect _ _ _ _ _ _ _ _ _ _ _ _ | NParen _ | NAlias _ _ _ | NJoin _ _ _ _ _ => True
                 | NWith _ _ | NTable _ _ | NUnnest _ _ _ _ | NCombined _ _ _ => True | _ => wf Ex n = true end).
    { destruct n; auto; destruct (wf Ex _) eqn:E; auto. }
    destruct n; try (exists []; reflexivity).
    - (* SELECT *) clear WE XA.
      assert (W' : wf St (NSelect exprs sel_all sel_distinct distinct_on from_ where_ group having order limit offset semi) = true) by (destruct (wf St _); [auto|discriminate W]).
      clear W. rename W' into W. destruct (visible_fine _ known O W F) as (K & V & FK). cbn [from_of] in V. rewrite wf_select in W. bools.
      assert (XU : forall k c, In c (children (NSelect exprs sel_all sel_distinct distinct_on from_ where_ group having order limit offset semi)) -> upto k c = true -> exists es, validate ord K c = Ok es).
      { intros k c I U. apply upto_and in U as [U _]. apply XE; auto. }
      assert (E1 : exists e, rconcat (validate ord K) exprs = Ok e).
      { apply rconcat_some. intros x I. apply (XU 7); [cbn [children]; apply in_or_app; auto|]. match goal with U : forallb (upto 7) exprs = true |- _ => rewrite forallb_forall in U; auto end. }
      assert (E2 : exists e, ropt (validate ord []) from_ = Ok e).
      { apply ropt_some. intros x ->. apply X; [apply inside_child; kid| |apply fine_nil]. cbn [oall] in *. match goal with U : wf Fr x = true |- _ => rewrite U, orb_true_r; auto end. }
      assert (EC : forall who x, In x (children (NSelect exprs sel_all sel_distinct distinct_on from_ where_ group having order limit offset semi)) ->
        judged x (NSelect exprs sel_all sel_distinct distinct_on from_ where_ group having order limit offset semi) -> condok x = true ->
        exists e, (a <- validate ord K x ;; b <- bool_errors ord who x K ;; Ok (a ++ b)) = Ok e).
      { intros who x I J C. unfold condok in C. bools. destruct (XE x I ltac:(assumption) K FK) as (a & ->). cbn [rbind].
        destruct (bool_ok who x _ K O J I ltac:(assumption) FK) as (b & ->). cbn. eauto. }
      assert (E3 : exists e, ropt (fun x => a <- validate ord K x ;; b <- bool_errors ord "WHERE" x K ;; Ok (a ++ b)) where_ = Ok e).
      { apply ropt_some. intros x ->. apply EC; [kid|constructor|assumption]. }
      assert (E5 : exists e, ropt (fun x => a <- validate ord K x ;; b <- bool_errors ord "HAVING" x K ;; Ok (a ++ b)) having = Ok e).
      { apply ropt_some. intros x ->. apply EC; [kid|constructor|assumption]. }
      assert (E4 : exists e, ropt (fun g : list node * bool * bool => rconcat (group_arg_errors K exprs) (fst (fst g))) group = Ok e).
      { apply ropt_some. intros [[args ru] ea] ->. cbn [fst]. apply rconcat_some. intros x I. eapply group_ok; [reflexivity|exact O|exact I|exact FK]. }
      assert (E6 : exists e, ropt (rconcat (fun i => match i with
                  | NOrderItem e _ _ => order_item_errors (Some (length exprs)) e (validate ord K e)
                  | _ => Err TypeError end)) order = Ok e).
      { apply ropt_some. intros items ->. apply rconcat_some. intros i I. cbn [oall] in *. unfold itemsok in *. bools.
        match goal with U : forallb itemok items = true |- _ => rewrite forallb_forall in U; pose proof (U i I) as Wi end.
        destruct i; try discriminate Wi. cbn [itemok] in Wi. bools.
        assert (Ii : In (NOrderItem i asc desc) (children (NSelect exprs sel_all sel_distinct distinct_on from_ where_ group having (Some items) limit offset semi))) by kid.
        assert (Oi : inside i (NSelect exprs sel_all sel_distinct distinct_on from_ where_ group having (Some items) limit offset semi)) by (eapply inside_child2; [exact Ii|cbn; auto]).
        unfold order_item_errors. destruct (unparen_ok i) as (v & -> & _); [apply no_empty; eapply occurs_trans; [apply inside_occurs; exact Oi|exact O]|]. cbn [rbind].
        destruct (X i Oi) with (known := K) as (es & ->); [match goal with U : wf Ex i = true |- _ => rewrite U; auto end|auto|].
        destruct v; eauto. destruct (_ <=? _)%Z; eauto. }
      assert (E7 : exists e, ropt (fun l : bool * option node => match snd l with Some x => count_errors LIMIT_VAR LIMIT_NEG x | None => Err AttributeError end) limit = Ok e).
      { apply ropt_some. intros [b [x|]] ->; cbn [snd]; [eapply count_ok; [exact O|constructor|kid]|]. exfalso. eapply (an_all _ An). exact O. }
      assert (E8 : exists e, ropt (count_errors OFFSET_VAR OFFSET_NEG) offset = Ok e).
      { apply ropt_some. intros x ->. eapply count_ok; [exact O|constructor|kid]. }
      destruct E1, E2, E3, E4, E5, E6, E7, E8. eexists. eapply select_build; eauto.
    - (* call *) rewrite wf_fun in WE. bools. apply XA; auto.
    - (* CAST *) exfalso. eapply (an_cast _ An). exact O.
    - (* COUNT *) rewrite wf_count in WE. bools. apply XA; auto.
    - (* ARRAY_AGG *) rewrite wf_arrayagg in WE. bools. cbn [validate]. apply XE; [kid|assumption|assumption].
    - (* FILTER *) rewrite wf_filtered in WE. bools. cbn [validate]. destruct (XE n1 ltac:(kid) ltac:(assumption) known F) as (a & ->).
      destruct (XE n2 ltac:(kid) ltac:(assumption) known F) as (b & ->). cbn. eauto.
    - (* OVER *) rewrite wf_analytics in WE. bools. cbn [validate]. destruct (XE n ltac:(kid) ltac:(assumption) known F) as (a & ->). cbn [rbind].
      assert (E1 : exists e, ropt (rconcat (validate ord known)) partition = Ok e).
      { apply ropt_some. intros l ->. apply rconcat_some. intros x I. cbn [oall] in *. bools. match goal with U : forallb (upto 4) l = true |- _ => rewrite forallb_forall in U; pose proof (U x I) as Wx end.
        apply upto_and in Wx as [Wx _]. apply XE; auto. kid. }
      assert (E2 : exists e, ropt (rconcat (fun i => match i with
                 | NOrderItem e _ _ => order_item_errors None e (validate ord known e)
                 | _ => Err TypeError end)) order = Ok e).
      { apply ropt_some. intros items ->. apply rconcat_some. intros i I. cbn [oall] in *. unfold itemsok in *. bools.
        match goal with U : forallb itemok items = true |- _ => rewrite forallb_forall in U; pose proof (U i I) as Wi end.
        destruct i; try discriminate Wi. cbn [itemok] in Wi. bools.
        assert (Oi : inside i (NAnalytics n partition (Some items) frame)) by (apply (inside_child2 _ (NOrderItem i asc desc)); [kid|left; reflexivity]).
        unfold order_item_errors. destruct (unparen_ok i) as (v & -> & Wr & _); [apply no_empty; eapply occurs_trans; [apply inside_occurs; exact Oi|exact O]|]. cbn [rbind].
        destruct (X i Oi) with (known := known) as (es & ->); [match goal with U : wf Ex i = true |- _ => rewrite U; auto end|auto|].
        destruct v; eauto. rewrite (proj2 (Z.leb_le _ _) (an_over _ An _ _ _ _ _ _ _ _ O I Wr)). eauto. }
      destruct E1 as (b & ->), E2 as (c & ->). cbn. eauto.
    - (* column *) cbn. eauto.
    - (* dotted *) rewrite wf_chained in WE. bools. cbn [validate]. unfold chained_errors.
      destruct (good_all n1) as (G1 & _). destruct (G1 ltac:(assumption)) as ((u1 & -> & _) & _). cbn [rbind].
      destruct (good_all n2) as (G2 & _). destruct (G2 ltac:(assumption)) as ((u2 & U2 & _) & _). rewrite U2. cbn [rbind].
      rewrite render_str, U2; [|assumption|]; [cbn [rbind]; destruct (_ && _); eauto|].
      match goal with U : _ || _ = true |- _ => apply orb_true_iff in U as [U|U]; [apply Nat.leb_le in U; lia|destruct n2; try discriminate U; cbn; destruct n2; lia] end.
    - (* parentheses *) destruct (wf Ex (NParen args)) eqn:E; [rewrite wf_paren in E; apply XA; auto|].
      assert (E' : wf Fr (NParen args) = true) by (destruct (wf Fr (NParen args)); [auto|discriminate W]). clear W E.
      destruct args as [|a [|b r]]; try discriminate E'. change (wf Fr (NParen [a])) with (if is_sel a || is_wth a then wf St a else wf Fr a) in E'.
      cbn [validate]. apply rconcat_some. intros x [<-|[]]. apply X; auto; [apply inside_child; kid|]. destruct (is_sel a || is_wth a); rewrite E', ?orb_true_r; auto.
    - (* alias *) cbn [validate]. destruct (wf Ex (NAlias n alias with_as)) eqn:E; [rewrite wf_alias in E; bools; apply XE; auto; kid|].
      assert (E' : wf Fr (NAlias n alias with_as) = true) by (destruct (wf Fr (NAlias n alias with_as)); [auto|discriminate W]). clear W E.
      rewrite wf_falias in E'. bools. apply X; auto; [apply inside_child; kid|]. match goal with U : wf Fr n = true |- _ => rewrite U, orb_true_r; auto end.
    - (* join *) cbn. eauto.
    - (* comparison *) rewrite wf_cond in WE. bools. cbn [validate]. destruct (XE n1 ltac:(kid) ltac:(assumption) known F) as (a & ->). cbn [rbind].
      destruct (str_eqb (lower pred) "between").
      + destruct n2; try discriminate. bools.
        assert (Y : forall c, In c [n2_1; n2_2] -> wf Ex c = true -> exists es, validate ord known c = Ok es).
        { intros c I Wc. apply X; auto; [apply (inside_child2 _ (NBoolC ty n2_1 n2_2)); [kid|exact I]|rewrite Wc; auto]. }
        destruct (Y n2_1 ltac:(cbn; auto) ltac:(assumption)) as (x & ->). destruct (Y n2_2 ltac:(cbn; auto) ltac:(assumption)) as (y & ->). cbn. eauto.
      + bools. destruct (XE n2 ltac:(kid) ltac:(assumption) known F) as (b & ->). cbn. eauto.
    - (* AND, OR *) rewrite wf_boolc in WE. bools. cbn [validate].
      destruct (XE n1 ltac:(kid) ltac:(assumption) known F) as (a & ->). cbn [rbind].
      destruct (bool_ok (upper ty) n1 (NBoolC ty n1 n2) known O) as (a' & ->); [constructor|kid|assumption|assumption|]. cbn [rbind].
      destruct (XE n2 ltac:(kid) ltac:(assumption) known F) as (b & ->). cbn [rbind].
      destruct (bool_ok (upper ty) n2 (NBoolC ty n1 n2) known O) as (b' & ->); [constructor|kid|assumption|assumption|]. cbn. eauto.
    - (* REPLACE *) rewrite wf_replace in WE. bools. cbn [validate]. apply rconcat_some. intros x I.
      match goal with U : forallb argok args = true, U' : forallb as_alias args = true |- _ => rewrite forallb_forall in U, U'; pose proof (U x I) as A; pose proof (U' x I) as B end.
      destruct x; try discriminate B. destruct with_as; try discriminate B. cbn [argok is_sel] in A. unfold argok in A. cbn [is_sel] in A. bools.
      match goal with U : wf Ex (NAlias _ _ _) = true |- _ => rewrite wf_alias in U end. bools. cbn [aliasok] in *. destruct alias as [t|y]; [discriminate|]. bools.
      apply X; auto; [eapply inside_child2 with (d := NAlias x (inr y) true); [kid|cbn; auto]|]. match goal with U : wf Ex y = true |- _ => rewrite U; auto end.
  Qed.
End Root.

Lemma semi_validate : forall ord k n, validate ord k (with_semi false n) = validate ord k n.
Proof. intros ord k n. destruct n; try reflexivity. destruct n; reflexivity. Qed.
Lemma semi_occurs : forall b n m, occurs m (with_semi b n) -> is_sel n = true -> m = with_semi b n \/ occurs m n.
Proof.
  intros b n m O S. destruct n; try discriminate S. cbn [with_semi] in *. inversion O; subst; [left; auto|]. right. eapply occurs_in; [|eassumption]. assumption.
Qed.
Lemma semi_select : forall n, with_semi false n <> n -> is_sel n = true -> exists exprs a d don f w g h o l off, n = NSelect exprs a d don f w g h o l off true.
Proof. intros n H S. destruct n; try discriminate S. destruct semi; [repeat eexists|]. destruct H; reflexivity. Qed.
Lemma semi_back : forall n m, is_sel n = true -> occurs m (with_semi false n) -> exists m', occurs m' n /\ (m = m' \/ is_sel m' = true /\ m = with_semi false m').
Proof.
  intros n m S O. destruct (semi_occurs _ _ _ O S) as [->|X]; [|eauto]. exists n. split; [constructor|auto].
Qed.
Lemma semi_answerable : forall n, is_sel n = true -> answerable n -> answerable (with_semi false n).
Proof.
  intros n S A.
  assert (SF : forall x, some_field x (with_semi false n) -> some_field x n).
  { intros x (s & f & fs & O & E & K & I). destruct (semi_back n s S O) as (s' & O' & [->|(Q & ->)]); [exists s', f, fs; auto|].
    exists s', f, fs. repeat split; auto. destruct s'; try discriminate Q. exact E. }
  split.
  - intros e t O. destruct (semi_back _ _ S O) as (m & O' & [<-|(Q & E)]); [eapply (an_cast _ A); eauto|]. destruct m; try discriminate Q. discriminate E.
  - intros O. destruct (semi_back _ _ S O) as (m & O' & [<-|(Q & E)]); [eapply (an_empty _ A); eauto|]. destruct m; try discriminate Q. discriminate E.
  - intros exprs a d don f w g h o b off semi O. destruct (semi_back _ _ S O) as (m & O' & [<-|(Q & E)]); [eapply (an_all _ A); eauto|].
    destruct m; try discriminate Q. cbn in E. injection E as -> -> -> -> -> -> -> -> -> <- -> _. eapply (an_all _ A); eauto.
  - intros e s x O J L. destruct (semi_back _ _ S O) as (m & O' & [->|(Q & E)]); [eapply (an_judged _ A); eauto|].
    eapply (an_judged _ A e m x); auto. destruct m; try discriminate Q. cbn in E. subst s. inversion J; subst; constructor.
  - intros f p o fr e asc desc z O I W. destruct (semi_back _ _ S O) as (m & O' & [<-|(Q & E)]); [eapply (an_over _ A); eauto|]. destruct m; try discriminate Q. discriminate E.
  - intros s f e w v q p O E. destruct (semi_back _ _ S O) as (m & O' & [->|(Q & ->)]); [eapply (an_alias _ A); eauto|].
    eapply (an_alias _ A m); auto. destruct m; try discriminate Q. exact E.
  - intros v s x y O G Fx Fy Ux Uy. apply SF in Fx. apply SF in Fy. destruct (semi_back _ _ S O) as (m & O' & [->|(Q & ->)]); [eapply (an_group _ A); eauto|].
    eapply (an_group _ A v m); eauto. destruct m; try discriminate Q. cbn in G.
    destruct G as (exprs' & a & d & don & f & w & args & ru & ea & h & o & l & off' & semi' & arg & E & G). injection E as -> -> -> -> -> -> -> -> -> -> -> _. repeat eexists; apply G.
Qed.

Lemma answers : forall q n ord, is_order ord -> parse_sql q = Ok n -> is_sel n = true -> statement n = true -> answerable n ->
  exists es, errors_of ord q = Ok es.
Proof.
  intros q n ord O P S W A. unfold errors_of. rewrite P. cbn [rbind].
  destruct (validates (with_semi false n) ord (semi_answerable n S A) O (with_semi false n)) with (known := @nil field) as (es & E).
  - constructor.
  - unfold statement in W. rewrite W, orb_true_r. auto.
  - apply fine_nil.
  - rewrite semi_validate in E. exists es. destruct n; try discriminate S. exact E.
Qed.
Lemma errors_is_valid : forall q ord es, errors_of ord q = Ok es ->
  fst (q_is_valid ord (new_query q)) = Ok (match es with [] => true | _ => false end).
Proof.
  intros q ord es E. unfold errors_of in E. unfold q_is_valid, q_validate, get_ast, new_query. cbn [q_validated q_ast q_sql q_errors].
  destruct (parse_sql q) as [n|x]; [|discriminate E]. cbn [rbind] in *. rewrite E. cbn. destruct es; reflexivity.
Qed.
Lemma is_valid_answers : forall q n ord, is_order ord -> parse_sql q = Ok n -> is_sel n = true -> statement n = true -> answerable n ->
  exists b, fst (q_is_valid ord (new_query q)) = Ok b.
Proof. intros. destruct (answers q n ord) as (es & E); auto. eexists. apply errors_is_valid; eauto. Qed.

(** ** A decision procedure, for examples *)
Fixpoint parts (k : nat) (n : node) : list node :=
  n :: match k with 0 => [] | Datatypes.S k => flat_map (parts k) (children n) end.
Lemma parts_ok : forall k n m, size n <= k -> occurs m n -> In m (parts k n).
Proof.
  induction k as [|k IH]; intros n m L O; inversion O; subst; try (left; reflexivity); pose proof (children_size _ _ H); [lia|].
  right. apply in_flat_map. exists c. split; auto. apply IH; auto. lia.
Qed.
Definition all_parts (n : node) : list node := parts (size n) n.
Fixpoint no_lead (e : node) : bool :=
  match e with
  | NSelect _ _ _ _ _ _ _ _ _ _ _ _ => false
  | NParen (a :: _) => no_lead a | NAlias e _ _ => no_lead e | NChained _ r => no_lead r
  | _ => true
  end.
Lemma no_lead_ok : forall e x, leads e x -> no_lead e = true -> is_sel x = false.
Proof. intros e x L. induction L; auto. destruct e; auto. Qed.
Definition judged_in (s : node) : list node :=
  match s with
  | NSelect _ _ _ _ _ w _ h _ l off _ => olist w ++ olist h ++ match l with Some (_, Some e) => [e] | _ => [] end ++ olist off
  | NBoolC _ l r => [l; r]
  | _ => []
  end.
Lemma judged_in_ok : forall e s, judged e s -> In e (judged_in s).
Proof. intros e s J. destruct J; cbn [judged_in]; rewrite ?in_app_iff; cbn; auto 10. Qed.
Definition grouped_in (s : node) : list str :=
  match s with
  | NSelect _ _ _ _ _ _ (Some (args, _, _)) _ _ _ _ _ =>
    flat_map (fun a => match unparen a with Ok (NColumn v) | Ok (NString v _ _) => [v] | _ => [] end) args
  | _ => []
  end.
Lemma grouped_in_ok : forall v s, grouped v s -> In v (grouped_in s).
Proof.
  intros v s (exprs & a & d & don & f & w & args & ru & ea & h & o & l & off & semi & arg & -> & I & W). cbn [grouped_in]. apply in_flat_map. exists arg. split; auto.
  destruct W as [W|(q & p & W)]; rewrite (wraps_unparen _ _ W); left; auto.
Qed.
Definition fields_in (n : node) : fields :=
  flat_map (fun s => match from_of s with Some f => match known_fields f with Ok fs => fs | Err _ => [] end | None => [] end) (all_parts n).
Lemma fields_in_ok : forall x n, some_field x n -> In x (fields_in n).
Proof.
  intros x n (s & f & fs & O & E & K & I). apply in_flat_map. exists s. split; [apply parts_ok; auto|]. rewrite E, K. auto.
Qed.
Definition part_ok (s : node) : bool :=
  match s with
  | NCast _ _ | NParen [] | NSelect _ _ _ _ _ _ _ _ _ (Some (_, None)) _ _ => false
  | NAnalytics _ _ (Some o) _ =>
    forallb (fun i => match i with NOrderItem e _ _ => match unparen e with Ok (NInt z) => (z <=? 0)%Z | _ => true end | _ => true end) o
  | _ => true
  end
  && forallb no_lead (judged_in s)
  && match from_of s with
     | Some f => forallb (fun a => match a with NAlias _ (inr (NString _ _ _)) _ => false | _ => true end) (all_parts f)
     | None => true end.
Definition answerableb (n : node) : bool :=
  forallb part_ok (all_parts n)
  && forallb (fun v => forallb (fun x => forallb (fun y => field_eqb x y) (fmatching v (fields_in n))) (fmatching v (fields_in n)))
       (flat_map grouped_in (all_parts n)).
Lemma answerableb_ok : forall n, answerableb n = true -> answerable n.
Proof.
  intros n H. unfold answerableb in H. apply andb_true_iff in H as [H G]. rewrite forallb_forall in H, G.
  assert (P : forall s, occurs s n -> part_ok s = true) by (intros s O; apply H, parts_ok; auto). clear H.
  split.
  - intros e t O. apply P in O. discriminate O.
  - intros O. apply P in O. discriminate O.
  - intros * O. apply P in O. discriminate O.
  - intros e s x O J L. apply P in O. unfold part_ok in O. apply andb_true_iff in O as [O _]. apply andb_true_iff in O as [_ O]. rewrite forallb_forall in O.
    eapply no_lead_ok; [exact L|]. apply O, judged_in_ok; auto.
  - intros f p o fr e asc desc z O I W. apply P in O. unfold part_ok in O. apply andb_true_iff in O as [O _]. apply andb_true_iff in O as [O _]. rewrite forallb_forall in O.
    apply O in I. cbn in I. rewrite (wraps_unparen _ _ W) in I. cbn in I. apply Z.leb_le. auto.
  - intros s f e w v q p O E X. apply P in O. unfold part_ok in O. apply andb_true_iff in O as [_ O]. rewrite E, forallb_forall in O.
    apply parts_ok with (k := size f) in X; auto. apply O in X. discriminate X.
  - intros v s x y O Gr Fx Fy Ux Uy. apply fields_in_ok in Fx. apply fields_in_ok in Fy.
    assert (I : In v (flat_map grouped_in (all_parts n))) by (apply in_flat_map; exists s; split; [apply parts_ok; auto|apply grouped_in_ok; auto]).
    apply G in I. rewrite forallb_forall in I.
    assert (M : forall z, In z (fields_in n) -> unqualified (fst z) = v -> In z (fmatching v (fields_in n))).
    { intros z Iz Uz. apply filter_In. split; auto. rewrite Uz. apply str_eqb_refl. }
    specialize (I x (M x Fx Ux)). rewrite forallb_forall in I. apply field_eqb_eq. apply I. auto.
Qed.
Lemma rejected_is_valid : forall q m ord, parse_sql q = Err (ParsingError m) -> fst (q_is_valid ord (new_query q)) = Ok false.
Proof.
  intros q m ord E. unfold q_is_valid, q_validate, get_ast, new_query. cbn [q_validated q_ast q_sql q_errors]. rewrite E. reflexivity.
Qed.
