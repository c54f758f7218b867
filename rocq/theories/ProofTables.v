(** C64: the exact answer of is_valid() for queries on tables. *)
From Coq Require Import Permutation.
From Verif Require Import PyStr Lib Ast AstLib Render RenderEq Digits Validate Api Grammar GramTok GramText GramPrint SpecVal SpecScope SpecReport SpecNested SpecAnswer SpecApi SpecStuck
  ProofVal ProofVal2 ProofReport ProofApi ProofNested ProofAnswer ProofRaise2 ProofStuck SpecTables.
Local Open Scope str_scope.
Local Open Scope list_scope.

(** ** What is looked at keeps its shape *)
Lemma below_inside : forall c n, below c n -> inside c n.
Proof.
  intros c n [P|[P|P]].
  - destruct P; try (apply inside_child; kid; fail).
    + eapply inside_child2 with (d := NOrderItem c asc desc); [kid|cbn; auto].
    + eapply inside_child2 with (d := NBoolC ty c y); [kid|cbn; auto].
    + eapply inside_child2 with (d := NBoolC ty x c); [kid|cbn; auto].
    + eapply inside_child2 with (d := NAlias x (inr c) w); [kid|cbn; auto].
  - destruct P; try (apply inside_child; kid; fail).
    eapply inside_child2 with (d := NOrderItem c asc desc); [kid|cbn; auto].
  - destruct n; try discriminate P. cbn [from_of] in P. subst from_. apply inside_child. kid.
Qed.
Lemma shaped_arg : forall l c, forallb argok l = true -> In c l -> shaped c = true.
Proof. intros l c A I. rewrite forallb_forall in A. specialize (A c I). unfold argok in A. destruct (is_sel c); bools; [apply shaped_st|apply shaped_ex]; auto. Qed.
Lemma shaped_upto : forall k l c, forallb (upto k) l = true -> In c l -> shaped c = true.
Proof. intros k l c A I. rewrite forallb_forall in A. specialize (A c I). apply upto_and in A as [A _]. apply shaped_ex; auto. Qed.
Lemma shaped_item : forall items e a d, itemsok items = true -> In (NOrderItem e a d) items -> wf Ex e = true.
Proof. intros items e a d A I. unfold itemsok in A. bools. match goal with U : forallb itemok items = true |- _ => rewrite forallb_forall in U; specialize (U _ I); cbn [itemok] in U end. bools. auto. Qed.
Lemma below_shaped : forall c n, shaped n = true -> below c n -> shaped c = true.
Proof.
  intros c n W Bl.
  assert (WE : match n with NSelect _ _ _ _ _ _ _ _ _ _ _ _ | NParen _ | NAlias _ _ _ | NJoin _ _ _ _ _ => True
               | NWith _ _ | NTable _ _ | NUnnest _ _ _ _ | NCombined _ _ _ => True | _ => wf Ex n = true end).
  { unfold shaped in W. destruct n; auto; destruct (wf Ex _) eqn:E; auto. }
  destruct Bl as [P|[P|P]].
  - destruct P.
    + rewrite wf_fun in WE. bools. eapply shaped_arg; eauto.
    + rewrite wf_count in WE. bools. eapply shaped_arg; eauto.
    + destruct (wf Ex (NParen args)) eqn:E; [rewrite wf_paren in E; eapply shaped_arg; eauto|].
      assert (E' : wf Fr (NParen args) = true) by (unfold shaped in W; rewrite E in W; destruct (wf Fr (NParen args)); [auto|discriminate W]). clear W E.
      destruct args as [|a [|b r]]; try discriminate E'. change (wf Fr (NParen [a])) with (if is_sel a || is_wth a then wf St a else wf Fr a) in E'.
      destruct H as [<-|[]]. destruct (is_sel a || is_wth a); [apply shaped_st|apply shaped_fr]; auto.
    + destruct (wf Ex (NAlias c x w)) eqn:E; [rewrite wf_alias in E; bools; apply shaped_ex; auto|].
      assert (E' : wf Fr (NAlias c x w) = true) by (unfold shaped in W; rewrite E in W; destruct (wf Fr (NAlias c x w)); [auto|discriminate W]).
      rewrite wf_falias in E'. bools. apply shaped_fr; auto.
    + rewrite wf_arrayagg in WE. bools. apply shaped_ex; auto.
    + rewrite wf_filtered in WE. bools. apply shaped_ex; auto.
    + rewrite wf_filtered in WE. bools. apply shaped_ex; auto.
    + rewrite wf_analytics in WE. bools. apply shaped_ex; auto.
    + rewrite wf_analytics in WE. bools. cbn [oall] in *. bools. eapply shaped_upto; eauto.
    + rewrite wf_analytics in WE. bools. cbn [oall] in *. apply shaped_ex. eapply shaped_item; eauto.
    + rewrite wf_cond in WE. bools. apply shaped_ex; auto.
    + rewrite wf_cond in WE. bools. destruct (str_eqb (lower p) "between") eqn:Bt; [apply str_eqb_eq in Bt; contradiction|]. bools. apply shaped_ex; auto.
    + rewrite wf_cond, H, str_eqb_refl in WE. bools. apply shaped_ex; auto.
    + rewrite wf_cond, H, str_eqb_refl in WE. bools. apply shaped_ex; auto.
    + rewrite wf_boolc in WE. bools. apply shaped_ex; auto.
    + rewrite wf_boolc in WE. bools. apply shaped_ex; auto.
    + rewrite wf_replace in WE. bools.
      match goal with U : forallb argok args = true, U' : forallb as_alias args = true |- _ => rewrite forallb_forall in U, U'; pose proof (U _ H) as A; pose proof (U' _ H) as B end.
      destruct w; try discriminate B. unfold argok in A. cbn [is_sel] in A. bools.
      match goal with U : wf Ex (NAlias _ _ _) = true |- _ => rewrite wf_alias in U end. bools. cbn [aliasok] in *. bools. apply shaped_ex; assumption.
  - destruct P; apply shaped_sel in W; auto; cbn [with_semi] in W; rewrite wf_select in W; bools; cbn [oall] in *.
    + eapply shaped_upto; eauto.
    + unfold condok in *. bools. apply shaped_ex; auto.
    + unfold condok in *. bools. apply shaped_ex; auto.
    + bools. apply shaped_ex. eapply shaped_item; eauto.
  - destruct n; try discriminate P. cbn [from_of] in P. subst from_. apply shaped_sel in W; auto; cbn [with_semi] in W; rewrite wf_select in W; bools; cbn [oall] in *. apply shaped_fr; auto.
Qed.
Definition shaped2 (n : node) : bool := shaped (without_from n).
Lemma shaped_without : forall n, shaped n = true -> shaped2 n = true.
Proof.
  intros n W. destruct n; auto. unfold shaped2. cbn [without_from]. pose proof (shaped_sel _ W eq_refl) as X. unfold shaped. cbn [is_sel with_semi] in *. rewrite wf_select, !andb_true_iff in X.
  assert (Y : wf St (NSelect exprs sel_all sel_distinct distinct_on None where_ group having order limit offset false) = true).
  { rewrite wf_select, !andb_true_iff. cbn [oall]. tauto. }
  rewrite Y, andb_true_r. apply orb_true_r.
Qed.
Definition near (c n : node) : Prop := part c n \/ validated_in c n.
Lemma near_below : forall c n, near c n -> below c n.
Proof. intros c n [P|P]; [left|right; left]; auto. Qed.
Lemma near_shaped : forall c n, shaped2 n = true -> near c n -> shaped2 c = true.
Proof.
  intros c n W Bl. apply shaped_without. eapply below_shaped; [exact W|]. destruct Bl as [P|P].
  - left. replace (without_from n) with n by (destruct P; reflexivity). exact P.
  - right. left. destruct P; cbn [without_from]; [apply vi_list; auto|apply vi_where|apply vi_having|eapply vi_order; eauto].
Qed.
Lemma tested_wf : forall e x, tested e x -> shaped2 x = true -> wf Ex e = true.
Proof.
  intros e x T W. unfold shaped2 in W. destruct T; cbn [without_from] in W.
  - apply shaped_sel in W; auto; cbn [with_semi] in W; rewrite wf_select in W; bools; cbn [oall] in *. unfold condok in *. bools. auto.
  - apply shaped_sel in W; auto; cbn [with_semi] in W; rewrite wf_select in W; bools; cbn [oall] in *. unfold condok in *. bools. auto.
  - assert (E : wf Ex (NBoolC ty e r) = true) by (unfold shaped in W; destruct (wf Ex (NBoolC ty e r)) eqn:E; auto). rewrite wf_boolc in E. bools. auto.
  - assert (E : wf Ex (NBoolC ty l e) = true) by (unfold shaped in W; destruct (wf Ex (NBoolC ty l e)) eqn:E; auto). rewrite wf_boolc in E. bools. auto.
Qed.

(** ** The only known field is the star *)
Lemma tables_fields : forall f, tables f -> known_fields f = Ok [star].
Proof.
  intros f T. induction T; cbn [known_fields]; auto.
  - rewrite IHT. reflexivity.
  - assert (L : match l with NAlias e a _ => fs <- known_fields e ;; alias_fields (match a with inl s => Ok s | inr _ => Err TypeError end) fs | _ => known_fields l end = Ok [star]).
    { destruct T1; exact IHT1. }
    assert (Rr : match r with NAlias e a _ => fs <- known_fields e ;; alias_fields (match a with inl s => Ok s | inr _ => Err TypeError end) fs | _ => known_fields r end = Ok [star]).
    { destruct T2; exact IHT2. }
    rewrite L, Rr. reflexivity.
Qed.
Lemma tables_looked : forall x f, looked x f -> tables f -> tables x.
Proof.
  intros x f L. induction L; auto; intros T.
  - destruct T; inversion H; subst. destruct H1 as [<-|[]]. auto.
  - destruct T; inversion H.
  - destruct T; discriminate H.
Qed.
Definition all_tables (n : node) : Prop := forall s f, looked s n -> from_of s = Some f -> tables f.
Lemma all_below : forall c n, below c n -> all_tables n -> all_tables c.
Proof. intros c n Bl A s f L. apply A. eapply below_looked; eauto. Qed.
Lemma visible_star : forall n, all_tables n -> visible [star] (from_of n) = Ok [star].
Proof. intros n A. destruct (from_of n) as [f|] eqn:E; [|reflexivity]. cbn [visible]. rewrite (tables_fields f); [reflexivity|]. eapply A; [constructor|auto]. Qed.
Lemma top_star : forall n ord, on_tables n -> validate ord [] n = validate ord [star] n.
Proof.
  intros n ord [[f E] A]. destruct n; try discriminate E. cbn [from_of] in E. subst from_. assert (T : tables f) by (eapply A; [constructor|reflexivity]).
  cbn [validate visible]. rewrite (tables_fields f T). reflexivity.
Qed.
Lemma ord_star : forall ord, is_order ord -> ord [star] = [star].
Proof. intros ord O. apply Permutation_length_1_inv. apply Permutation_sym. apply O. Qed.

(** ** Conditions *)
Lemma rt_value : forall e t, return_type e = Ok (Some t) -> t <> TBool -> t <> TObject -> exists y, leads e y /\ value_like y.
Proof.
  induction e as [e IH] using node_ind'. intros t T B O. destruct e; cbn [return_type] in T;
    try (injection T as <-; congruence); try discriminate T;
    try (eexists; split; [constructor|constructor]; fail).
  - destruct (IH e2 ltac:(cbn; auto) t T B O) as (y & L & V). exists y. split; [constructor|]; auto.
  - destruct args as [|a r]; [discriminate T|]. destruct (IH a ltac:(cbn; auto) t T B O) as (y & L & V). exists y. split; [constructor|]; auto.
  - destruct (IH e ltac:(cbn; auto) t T B O) as (y & L & V). exists y. split; [constructor|]; auto.
Qed.
Lemma value_rt : forall e y, leads e y -> value_like y -> exists t, return_type e = Ok (Some t) /\ t <> TBool /\ t <> TObject.
Proof. intros e y L V. induction L; auto. destruct V; eexists; (split; [reflexivity|split; discriminate]). Qed.
Lemma empty_rt : forall e y, leads e y -> y = NParen [] -> return_type e = Ok None.
Proof. intros e y L. induction L; intros ->; auto. Qed.

Lemma blank_star : forall a b, a ++ 32%N :: b <> "*".
Proof. intros [|x [|y a]] b; cbn; congruence. Qed.
Lemma dot_star : forall a b, a ++ 46%N :: b <> "*".
Proof. intros [|x [|y a]] b; cbn; congruence. Qed.
Lemma int_star : forall z, str_of_Z z <> "*".
Proof.
  intros z E. destruct z as [|p|p]; cbn [str_of_Z] in E; [discriminate E| |discriminate E].
  pose proof (str_of_Z_digits (Z.pos p) ltac:(lia)) as D. cbn [str_of_Z] in D. rewrite E in D. discriminate D.
Qed.
Lemma value_star : forall e y, leads e y -> wf Ex e = true -> value_like y \/ is_sel y = true \/ y = NParen [] -> forall t, render Tr e = Ok t -> t <> "*".
Proof.
  intros e y L W V t R.
  destruct L.
  - destruct V as [V|[V| ->]].
    + destruct V.
      * rewrite render_NString in R. cbn [rbind Render.finish] in R. injection R as <-. cbn [wf] in W. destruct p; [discriminate W|]. bools.
        match goal with U : In q QUOTES |- _ => cbn in U; destruct U as [<-|[<-|[<-|[]]]]; discriminate | U : mem q QUOTES = true |- _ => apply mem_In in U; cbn in U; destruct U as [<-|[<-|[<-|[]]]]; discriminate end.
      * rewrite render_NInt in R. cbn [rbind Render.finish] in R. injection R as <-. apply int_star.
      * rewrite render_NFloat in R. cbn [rbind Render.finish] in R. injection R as <-. intros ->. discriminate W.
      * rewrite render_NNull in R. cbn [rbind Render.finish] in R. injection R as <-. discriminate.
      * rewrite render_NArith in R. inv_bind R. inv_bind Hb. inv_bind Hb. injection Hb as <-. cbn [Render.finish] in R. injection R as <-. apply blank_star.
    + destruct e; try discriminate V. discriminate W.
    + rewrite render_NParen in R. cbn in R. injection R as <-. discriminate.
  - rewrite render_NParen in R. cbv zeta in R. inv_bind R. injection R as <-. discriminate.
  - rewrite render_NAlias in R. inv_bind R. inv_bind R. cbn [Render.finish] in R. injection R as <-. destruct w; apply blank_star.
  - rewrite render_NChained in R. inv_bind R. inv_bind Hb. inv_bind Hb. injection Hb as <-. cbn [Render.finish] in R. injection R as <-. apply dot_star.
Qed.
Lemma resolve_star : forall ord e, is_order ord -> wf Ex e = true -> exists t, render Tr e = Ok t
  /\ resolve ord e [star] = if str_eqb "*" t then Ok (Some TObject) else return_type e.
Proof.
  intros ord e O W. destruct (good_all e) as (G & _). destruct (G W) as ((u & U & _) & _). exists u. split; auto.
  unfold resolve. rewrite (ord_star _ O). destruct (is_select e) eqn:S; [destruct e; try discriminate S; discriminate W|].
  rewrite U. cbn [rbind filter star fst]. destruct (str_eqb "*" u); reflexivity.
Qed.
Lemma resolve_lead : forall ord e y, is_order ord -> wf Ex e = true -> leads e y -> value_like y \/ is_sel y = true \/ y = NParen [] ->
  resolve ord e [star] = return_type e.
Proof.
  intros ord e y O W L V. destruct (resolve_star ord e O W) as (t & R & ->). pose proof (value_star e y L W V t R) as N.
  destruct (str_eqb "*" t) eqn:E; auto. apply str_eqb_eq in E. congruence.
Qed.

(** ** Three outcomes *)
Definition ans3 (F B : Prop) (r : R (list str)) : Prop := (exists es, r = Ok es /\ (es = [] \/ F)) \/ B.
Lemma app_or : forall (F : Prop) (a b : list str), a = [] \/ F -> b = [] \/ F -> a ++ b = [] \/ F.
Proof. intros F a b [->|X] [->|Y]; auto. Qed.
Lemma ans3_rconcat : forall F B {A} (f : A -> R (list str)) l, (forall x, In x l -> ans3 F B (f x)) -> ans3 F B (rconcat f l).
Proof.
  intros F B A f l. unfold rconcat. induction l as [|a l IH]; intros H; cbn [rmap]; [left; cbn; eauto|]. destruct (H a) as [(b & -> & Hb)|X]; [left; auto| |right; auto]. cbn [rbind].
  destruct IH as [(bs & E & Hbs)|X]; [intros x I; apply H; right; auto| |right; auto]. inv_bind E. injection E as <-. left. rewrite Hb0. cbn. eexists. split; [reflexivity|]. apply app_or; auto.
Qed.
Lemma ans3_ropt : forall F B {A} (f : A -> R (list str)) o, (forall x, o = Some x -> ans3 F B (f x)) -> ans3 F B (ropt f o).
Proof. intros F B A f [a|] H; [apply H; auto|left; cbn; eauto]. Qed.
Lemma ans3_ok : forall (F B : Prop) es, es = [] \/ F -> ans3 F B (Ok es).
Proof. intros. left. eauto. Qed.
Lemma bool3 : forall (F B : Prop) ord who e, is_order ord -> wf Ex e = true -> (forall y, leads e y -> value_like y -> F) ->
  (forall y, leads e y -> is_sel y = true \/ y = NParen [] -> B) -> ans3 F B (bool_errors ord who e [star]).
Proof.
  intros F B ord who e O W HF HB. unfold bool_errors. destruct (resolve_star ord e O W) as (t & _ & ->). destruct (str_eqb "*" t); [left; cbn; eauto|].
  destruct (rt_cases e) as [[u T]|[[L T]|(x & L & S & T)]]; [|right; eapply HB; eauto|right; eapply HB; eauto].
  rewrite T. cbn [rbind]. destruct u; try (left; eexists; split; [reflexivity|left; reflexivity]);
    (destruct (rt_value e _ T) as (y & L & V); [discriminate|discriminate|]; left; eexists; split; [reflexivity|right; eapply HF; eauto]).
Qed.
Lemma count3 : forall (F B : Prop) a b e, ((forall z, wraps e (NInt z) -> (z < 0)%Z) -> F) -> (wraps e (NParen []) \/ (exists x, leads e x /\ is_sel x = true) -> B) ->
  ans3 F B (count_errors a b e).
Proof.
  intros F B a b e HF HB. destruct (count_answers a b e) as [(es & E)|X]; [|right; auto]. left. exists es. split; auto.
  apply count_errors_inv in E as [(z & W & E)|(_ & N)].
  - destruct (Z.ltb_spec z 0); [right|left; auto].
    apply HF. intros z' W'. apply wraps_unparen in W, W'. rewrite W in W'. cbn in W'. injection W' as <-. auto.
  - right. apply HF. intros z W. destruct (N z W).
Qed.
Lemma order3 : forall (F B : Prop) count e rest, (wraps e (NParen []) -> B) ->
  (forall z, wraps e (NInt z) -> (z < 1)%Z -> F) ->
  (forall z, wraps e (NInt z) -> (0 < z)%Z -> match count with Some n => (Z.of_nat n < z)%Z -> F | None => B end) ->
  ((forall z, ~ wraps e (NInt z)) -> ans3 F B rest) -> ans3 F B (order_item_errors count e rest).
Proof.
  intros F B count e rest H0 Z1 Z2 Rs. unfold order_item_errors. destruct (unparen_cases e) as [[W _]|(v & U & W)]; [right; auto|]. rewrite U. cbn [rbind].
  assert (D : (exists z, v = NInt z) \/ forall z, v <> NInt z) by (destruct v; try (right; discriminate); left; eauto).
  destruct D as [[z ->]|D].
  - destruct (Z.leb_spec z 0); [left; eexists; split; [reflexivity|right; eapply Z1; [exact W|lia]]|]. specialize (Z2 z W ltac:(assumption)). destruct count; [|right; auto].
    left. eexists. split; [reflexivity|]. destruct (Z.ltb_spec (Z.of_nat n) z); auto.
  - assert (NI : forall z, ~ wraps e (NInt z)).
    { intros z X. apply wraps_unparen in X. rewrite U in X. cbn in X. injection X as X. eapply D; eauto. }
    specialize (Rs NI). destruct v; auto. destruct (D z eq_refl).
Qed.
Lemma group3 : forall (F B : Prop) exprs e, (wraps e (NParen []) -> B) ->
  (forall z, wraps e (NInt z) -> (z < 1 \/ Z.of_nat (length exprs) < z)%Z -> F) -> ans3 F B (group_arg_errors [star] exprs e).
Proof.
  intros F B exprs e HB HF. unfold group_arg_errors. destruct (unparen_cases e) as [[W _]|(v & U & W)]; [right; auto|]. rewrite U. cbn [rbind]. left.
  destruct v; try (eexists; split; [reflexivity|left; reflexivity]);
    try (rewrite andb_false_r; eexists; split; [reflexivity|left; reflexivity]).
  destruct (Z.leb_spec z 0); [eexists; split; [reflexivity|]; right; eapply HF; [exact W|lia]|]. cbn [orb].
  destruct (Z.ltb_spec (Z.of_nat (length exprs)) z); [eexists; split; [reflexivity|]; right; eapply HF; [exact W|lia]|eauto].
Qed.

Lemma tables_decided : forall ord f, tables f -> forall K, ans3 (exists x, looked x f /\ faulty x) False (validate ord K f).
Proof.
  intros ord f T K. induction T.
  - left. exists []. auto.
  - cbn [validate]. apply ans3_rconcat. intros x [<-|[]]. destruct IHT as [(es & E & [Es|(y & L & Fy)])|[]]; left; exists es; split; auto.
    right. exists y. split; auto. eapply lk_part; [|exact L]. constructor. left. auto.
  - left. eexists. split; [reflexivity|]. destruct (mem ty ["CROSS JOIN"; ","]) eqn:M; cbn [negb andb]; [left; auto|].
    destruct on_; [left; auto|]. destruct using_; [left; auto|]. right. eexists. split; [constructor|].
    constructor; intros ->; discriminate M.
Qed.

Section Decides.
  Variable ord : fields -> fields.
  Hypothesis Ord : is_order ord.
  Ltac got H := let es := fresh "es" in let Ee := fresh "Ee" in destruct H as [(es & -> & Ee)|?]; [|right; assumption].
  Lemma decides : forall n, shaped2 n = true -> all_tables n -> ans3 (exists x, looked x n /\ faulty x) (exists x, looked x n /\ halts x) (validate ord [star] n).
  Proof.
    induction n as [n H] using node_inside_ind. intros W A.
    assert (X : forall c, near c n -> ans3 (exists x, looked x n /\ faulty x) (exists x, looked x n /\ halts x) (validate ord [star] c)).
    { intros c Bl. destruct (H c (below_inside _ _ (near_below _ _ Bl)) (near_shaped _ _ W Bl) (all_below _ _ (near_below _ _ Bl) A)) as [(es & E & [Es|(x & L & Fx)])|(x & L & Hx)].
      - left. eauto.
      - left. exists es. split; auto. right. exists x. split; auto. eapply below_looked; [eauto|apply near_below; auto].
      - right. exists x. split; auto. eapply below_looked; [eauto|apply near_below; auto]. }
    clear H.
    assert (HF : faulty n -> exists x, looked x n /\ faulty x) by (intros S; exists n; split; [constructor|auto]).
    assert (HH : halts n -> exists x, looked x n /\ halts x) by (intros S; exists n; split; [constructor|auto]).
    assert (XT : forall who e, tested e n -> ans3 (exists x, looked x n /\ faulty x) (exists x, looked x n /\ halts x) (bool_errors ord who e [star])).
    { intros who e T. apply bool3; auto; [eapply tested_wf; eauto|intros y L V; apply HF; eapply fl_test; eauto|intros y L V; apply HH; right; eauto]. }
    assert (XP : forall l, (forall c, In c l -> part c n) -> ans3 (exists x, looked x n /\ faulty x) (exists x, looked x n /\ halts x) (rconcat (validate ord [star]) l)).
    { intros l I. apply ans3_rconcat. intros c Ic. apply X. left. auto. }
    pose proof (visible_star n A) as VS.
    assert (XF : forall f, from_of n = Some f -> ans3 (exists x, looked x n /\ faulty x) (exists x, looked x n /\ halts x) (validate ord [] f)).
    { intros f E. destruct (tables_decided ord f (A n f (lk_here n) E) []) as [(es & Ee & [Es|(x & L & Fx)])|[]]; left; exists es; split; auto. right. exists x. split; auto. eapply lk_from; eauto. }
    assert (WE : match n with NSelect _ _ _ _ _ _ _ _ _ _ _ _ | NParen _ | NAlias _ _ _ | NJoin _ _ _ _ _ => True
                 | NWith _ _ | NTable _ _ | NUnnest _ _ _ _ | NCombined _ _ _ => True | _ => wf Ex n = true end).
    { unfold shaped2, shaped in W. destruct n; auto; cbn [without_from] in W; destruct (wf Ex _) eqn:E; auto. }
    set (F := exists x, looked x n /\ faulty x) in *. set (B := exists x, looked x n /\ halts x) in *. clearbody F B.
    destruct n; try (left; exists []; split; [reflexivity|left; reflexivity]).
    - (* SELECT *) clear WE. unfold shaped2 in W. cbn [without_from] in W. apply shaped_sel in W; auto. cbn [with_semi] in W. rewrite wf_select in W. bools. cbn [from_of] in *.
      assert (E1 : ans3 F B (rconcat (validate ord [star]) exprs)).
      { apply ans3_rconcat. intros x I. apply X. right. constructor. auto. }
      assert (E2 : ans3 F B (ropt (validate ord []) from_)).
      { apply ans3_ropt. intros x ->. apply XF. auto. }
      assert (EC : forall who x, validated_in x (NSelect exprs sel_all sel_distinct distinct_on from_ where_ group having order limit offset semi) ->
        tested x (NSelect exprs sel_all sel_distinct distinct_on from_ where_ group having order limit offset semi) ->
        ans3 F B (a <- validate ord [star] x ;; b <- bool_errors ord who x [star] ;; Ok (a ++ b))).
      { intros who x Vx T. got (X x (or_intror Vx)). cbn [rbind]. got (XT who x T). cbn [rbind]. apply ans3_ok. apply app_or; auto. }
      assert (E3 : ans3 F B (ropt (fun x => a <- validate ord [star] x ;; b <- bool_errors ord "WHERE" x [star] ;; Ok (a ++ b)) where_)).
      { apply ans3_ropt. intros x ->. apply EC; [apply vi_where|constructor]. }
      assert (E5 : ans3 F B (ropt (fun x => a <- validate ord [star] x ;; b <- bool_errors ord "HAVING" x [star] ;; Ok (a ++ b)) having)).
      { apply ans3_ropt. intros x ->. apply EC; [apply vi_having|constructor]. }
      assert (E4 : ans3 F B (ropt (fun g : list node * bool * bool => rconcat (group_arg_errors [star] exprs) (fst (fst g))) group)).
      { apply ans3_ropt. intros [[args ru] ea] ->. cbn [fst]. apply ans3_rconcat. intros x I. apply group3.
        - intros Wx. apply HH. left. eapply sk_group; eauto.
        - intros z Wx Z. apply HF. eapply fl_group; eauto. }
      assert (E6 : ans3 F B (ropt (rconcat (fun i => match i with
                  | NOrderItem e _ _ => order_item_errors (Some (length exprs)) e (validate ord [star] e)
                  | _ => Err TypeError end)) order)).
      { apply ans3_ropt. intros items ->. apply ans3_rconcat. intros i I. cbn [oall] in *. unfold itemsok in *. bools.
        match goal with U : forallb itemok items = true |- _ => rewrite forallb_forall in U; pose proof (U i I) as Wi end.
        destruct i; try discriminate Wi. apply order3.
        - intros Wr. apply HH. left. eapply sk_order; eauto.
        - intros z Wr Z. apply HF. eapply fl_order; eauto.
        - intros z Wr Z Z'. apply HF. eapply fl_order; eauto.
        - intros NI. apply X. right. eapply vi_order; eauto. }
      assert (E7 : ans3 F B (ropt (fun l : bool * option node => match snd l with Some x => count_errors LIMIT_VAR LIMIT_NEG x | None => Err AttributeError end) limit)).
      { apply ans3_ropt. intros [b [x|]] ->; cbn [snd]; [|right; apply HH; left; apply sk_all].
        apply count3; [intros Z; apply HF; apply fl_limit; auto|intros Z; apply HH; left; apply sk_limit; auto]. }
      assert (E8 : ans3 F B (ropt (count_errors OFFSET_VAR OFFSET_NEG) offset)).
      { apply ans3_ropt. intros x ->. apply count3; [intros Z; apply HF; apply fl_offset; auto|intros Z; apply HH; left; apply sk_offset; auto]. }
      clear - VS E1 E2 E3 E4 E5 E6 E7 E8.
      repeat match goal with E : ans3 F B _ |- _ => destruct E as [(? & ? & ?)|?]; [|right; assumption] end.
      left. eexists. split; [eapply select_build; eauto|]. repeat apply app_or; auto.
    - (* call *) apply XP. intros; constructor; auto.
    - (* CAST *) right. apply HH. left. constructor.
    - (* COUNT *) apply XP. intros; constructor; auto.
    - (* ARRAY_AGG *) cbn [validate]. apply X. left. constructor.
    - (* FILTER *) cbn [validate]. got (X n1 (or_introl (pt_filter_f _ _))). got (X n2 (or_introl (pt_filter_c _ _))). cbn [rbind]. apply ans3_ok. apply app_or; auto.
    - (* OVER *) rewrite wf_analytics in WE. bools. cbn [validate]. got (X n (or_introl (pt_over_f _ _ _ _))). cbn [rbind].
      assert (E1 : ans3 F B (ropt (rconcat (validate ord [star])) partition)) by (apply ans3_ropt; intros l ->; apply XP; intros; constructor; auto).
      assert (E2 : ans3 F B (ropt (rconcat (fun i => match i with
                 | NOrderItem e _ _ => order_item_errors None e (validate ord [star] e)
                 | _ => Err TypeError end)) order)).
      { apply ans3_ropt. intros items ->. apply ans3_rconcat. intros i I. cbn [oall] in *. unfold itemsok in *. bools.
        match goal with U : forallb itemok items = true |- _ => rewrite forallb_forall in U; pose proof (U i I) as Wi end.
        destruct i; try discriminate Wi. apply order3.
        - intros Wr. apply HH. left. eapply sk_over_empty; eauto.
        - intros z Wr Z. apply HF. eapply fl_over; eauto.
        - intros z Wr Z. apply HH. left. eapply sk_over; eauto.
        - intros NI. apply X. left. eapply pt_over_o; eauto. }
      got E1. got E2. cbn [rbind]. apply ans3_ok. repeat apply app_or; auto.
    - (* column *) left. exists []. split; auto. cbn [validate]. unfold column_errors. change (fnamed "*" [star]) with true. cbn [negb]. rewrite andb_false_r. auto.
    - (* dotted *) rewrite wf_chained in WE. bools. cbn [validate]. unfold chained_errors.
      destruct (good_all n1) as (G1 & _). destruct (G1 ltac:(assumption)) as ((u1 & -> & _) & _). cbn [rbind].
      destruct (good_all n2) as (G2 & _). destruct (G2 ltac:(assumption)) as ((u2 & -> & _) & _). cbn [rbind].
      change (fnamed "*" [star]) with true. cbn [negb]. rewrite andb_false_r. apply ans3_ok. auto.
    - (* parentheses *) apply XP. intros; constructor; auto.
    - (* alias *) cbn [validate]. apply X. left. constructor.
    - (* join *) left. eexists. split; [reflexivity|]. destruct (mem ty ["CROSS JOIN"; ","]) eqn:M; cbn [negb andb]; [left; auto|].
      destruct on_; [left; auto|]. destruct using_; [left; auto|]. right. apply HF. constructor; intros ->; discriminate M.
    - (* comparison *) rewrite wf_cond in WE. bools. cbn [validate]. got (X n1 (or_introl (pt_cond_l _ _ _))). cbn [rbind].
      destruct (str_eqb (lower pred) "between") eqn:Bt.
      + apply str_eqb_eq in Bt. destruct n2; try discriminate.
        got (X n2_1 (or_introl (pt_between_l _ _ _ _ _ Bt))). got (X n2_2 (or_introl (pt_between_r _ _ _ _ _ Bt))). cbn [rbind]. apply ans3_ok. repeat apply app_or; auto.
      + apply str_eqb_neq in Bt. got (X n2 (or_introl (pt_cond_r _ _ _ Bt))). cbn [rbind]. apply ans3_ok. apply app_or; auto.
    - (* AND, OR *) cbn [validate].
      got (X n1 (or_introl (pt_bool_l _ _ _))). cbn [rbind]. got (XT (upper ty) n1 (te_left _ _ _)). cbn [rbind].
      got (X n2 (or_introl (pt_bool_r _ _ _))). cbn [rbind]. got (XT (upper ty) n2 (te_right _ _ _)). cbn [rbind]. apply ans3_ok. repeat apply app_or; auto.
    - (* REPLACE *) rewrite wf_replace in WE. bools. cbn [validate]. apply ans3_rconcat. intros x I.
      match goal with U : forallb argok args = true, U' : forallb as_alias args = true |- _ => rewrite forallb_forall in U, U'; pose proof (U x I) as Ax; pose proof (U' x I) as Bx end.
      destruct x; try discriminate Bx. destruct with_as; try discriminate Bx. unfold argok in Ax. cbn [is_sel] in Ax. bools.
      match goal with U : wf Ex (NAlias _ _ _) = true |- _ => rewrite wf_alias in U end. bools. cbn [aliasok] in *. destruct alias as [t|y]; [discriminate|].
      apply X. left. eapply pt_replace; eauto.
  Qed.

  (** ** And each of them is noticed *)
  Lemma looked_star : forall x n, looked x n -> shaped2 n = true -> all_tables n -> forall es, validate ord [star] n = Ok es ->
    (shaped2 x = true /\ exists es', validate ord [star] x = Ok es' /\ incl es' es) \/ (tables x /\ exists K es', validate ord K x = Ok es' /\ incl es' es).
  Proof.
    intros x n L. induction L as [|a n P L IH|e n P L IH|f n P L IH]; intros W A es V.
    - left. split; auto. exists es. split; auto. apply incl_refl.
    - destruct (part_errors _ _ _ _ _ P V) as (es1 & E1 & I1).
      destruct (IH (near_shaped _ _ W (or_introl P)) (all_below _ _ (or_introl P) A) _ E1) as [(S & es' & E' & I')|(T & K & es' & E' & I')]; [left; split; auto; exists es'|right; split; auto; exists K, es']; (split; [auto|eapply incl_tran; eauto]).
    - destruct (validated_errors _ _ _ _ _ P V) as (K1 & es1 & Vi & E1 & I1). rewrite (visible_star _ A) in Vi. injection Vi as <-.
      destruct (IH (near_shaped _ _ W (or_intror P)) (all_below _ _ (or_intror (or_introl P)) A) _ E1) as [(S & es' & E' & I')|(T & K & es' & E' & I')]; [left; split; auto; exists es'|right; split; auto; exists K, es']; (split; [auto|eapply incl_tran; eauto]).
    - right. assert (T : tables f) by (eapply A; [constructor|exact P]). split; [eapply tables_looked; eauto|].
      eapply looked_errors; [|exact V]. eapply lk_from; eauto.
  Qed.
  Lemma tested_errors : forall e x es, tested e x -> all_tables x -> validate ord [star] x = Ok es -> exists who es', bool_errors ord who e [star] = Ok es' /\ incl es' es.
  Proof.
    intros e x es T A V. destruct T.
    - pose proof (visible_star _ A) as VS. apply select_parts in V as (K1 & e1 & e2 & e3 & e4 & e5 & e6 & e7 & e8 & H0' & H1' & H2' & H3' & H4' & H5' & H6' & H7' & H8' & ->).
      cbn [from_of] in VS. rewrite VS in H0'. injection H0' as <-. cbn [ropt] in H3'. inv_bind H3'. inv_bind H3'. injection H3' as <-. eexists _, _. split; [eassumption|].
      intros m I. rewrite !in_app_iff. auto.
    - pose proof (visible_star _ A) as VS. apply select_parts in V as (K1 & e1 & e2 & e3 & e4 & e5 & e6 & e7 & e8 & H0' & H1' & H2' & H3' & H4' & H5' & H6' & H7' & H8' & ->).
      cbn [from_of] in VS. rewrite VS in H0'. injection H0' as <-. cbn [ropt] in H5'. inv_bind H5'. inv_bind H5'. injection H5' as <-. eexists _, _. split; [eassumption|].
      intros m I. rewrite !in_app_iff. auto 10.
    - cbn [validate] in V. do 4 inv_bind V. injection V as <-. eexists _, _. split; [eassumption|]. intros m I. rewrite !in_app_iff. auto.
    - cbn [validate] in V. do 4 inv_bind V. injection V as <-. eexists _, _. split; [eassumption|]. intros m I. rewrite !in_app_iff. auto.
  Qed.
  Lemma halts_raises : forall x es, halts x -> shaped2 x = true -> all_tables x -> validate ord [star] x <> Ok es.
  Proof.
    intros x es [S|(e & y & T & L & Q)] W A V; [eapply stuck_raises; eauto|].
    destruct (tested_errors _ _ _ T A V) as (who & es' & E & _). unfold bool_errors in E.
    rewrite (resolve_lead ord e y Ord (tested_wf _ _ T W) L (or_intror Q)) in E. destruct Q as [Q|Q].
    - rewrite (rt_query _ _ L Q) in E. discriminate E.
    - rewrite (empty_rt _ _ L Q) in E. discriminate E.
  Qed.
  Lemma faulty_tables : forall x K es, tables x -> faulty x -> validate ord K x = Ok es -> es <> [].
  Proof.
    intros x K es T Fx V. destruct Fx; try (inversion T; fail).
    - destruct H; inversion T.
    - rewrite join_errors in V. destruct (mem ty ["CROSS JOIN"; ","]) eqn:M; [apply mem_In in M; destruct M as [<-|[<-|[]]]; congruence|injection V as <-; discriminate].
  Qed.
  Lemma faulty_errors : forall x es, faulty x -> shaped2 x = true -> all_tables x -> validate ord [star] x = Ok es -> es <> [].
  Proof.
    intros x es Fx W A V.
    assert (O : forall m, origin m x -> clause_message m -> es <> []).
    { intros m Om C. apply clause_not in C as [N T]. intros ->. destruct (looked_reported _ _ _ _ _ _ V (lk_here x) Om N T). }
    assert (NI : forall e, (exists z, wraps e (NInt z)) \/ forall z, ~ wraps e (NInt z)).
    { intros e. destruct (unparen_cases e) as [[_ U]|(v & U & Wv)].
      - right. intros z X. apply wraps_unparen in X. rewrite U in X. discriminate X.
      - assert (D : (exists z, v = NInt z) \/ forall z, v <> NInt z) by (destruct v; try (right; discriminate); left; eauto). destruct D as [[z ->]|D]; [left; eauto|].
        right. intros z X. apply wraps_unparen in X. rewrite U in X. cbn in X. injection X as X. eapply D; eauto. }
    assert (BP : forall n z, (z < 1 \/ Z.of_nat n < z)%Z -> bad_position n z = true) by (intros n z Z; rewrite bad_position_spec; lia).
    destruct Fx.
    - destruct (tested_errors _ _ _ H A V) as (who & es' & E & I). unfold bool_errors in E.
      rewrite (resolve_lead ord e y Ord (tested_wf _ _ H W) H0 (or_introl H1)) in E. destruct (value_rt _ _ H0 H1) as (t & T & N1 & N2). rewrite T in E. cbn [rbind] in E.
      intros ->. destruct t; try congruence; injection E as <-; destruct (I _ (or_introl eq_refl)).
    - destruct (NI e) as [[z Z]|N]; [eapply O; [eapply or_limit_neg; eauto|constructor]|eapply O; [apply or_limit; auto|constructor]].
    - destruct (NI e) as [[z Z]|N]; [eapply O; [eapply or_offset_neg; eauto|constructor]|eapply O; [apply or_offset; auto|constructor]].
    - eapply O; [eapply or_group_position; eauto|constructor].
    - eapply O; [eapply or_order_position; eauto|constructor].
    - eapply O; [eapply or_over_position; eauto; lia|constructor].
    - eapply O; [apply or_join; auto|constructor].
  Qed.
  Lemma looked_tables : forall x n, looked x n -> all_tables n -> all_tables x.
  Proof. intros x n L A s f Ls. apply A. eapply looked_trans; eauto. Qed.
  Lemma looked_halts : forall x n es, shaped2 n = true -> all_tables n -> looked x n -> halts x -> validate ord [star] n <> Ok es.
  Proof.
    intros x n es W A L Hx V. destruct (looked_star x n L W A es V) as [(S & es' & E & _)|(T & _)].
    - eapply halts_raises; [exact Hx|exact S| |exact E]. eapply looked_tables; eauto.
    - destruct Hx as [S|(e & y & Te & _)]; [destruct S|destruct Te]; inversion T.
  Qed.
  Lemma looked_faulty : forall x n es, shaped2 n = true -> all_tables n -> looked x n -> faulty x -> validate ord [star] n = Ok es -> es <> [].
  Proof.
    intros x n es W A L Fx V N. destruct (looked_star x n L W A es V) as [(S & es' & E & I)|(T & K & es' & E & I)]; subst es; apply incl_l_nil in I; subst es'.
    - eapply faulty_errors in E; eauto. eapply looked_tables; eauto.
    - eapply faulty_tables in E; eauto.
  Qed.
End Decides.

Lemma tables_answer : forall q n ord, is_order ord -> parse_sql q = Ok n -> is_sel n = true -> statement (without_from n) = true -> on_tables n ->
  ((exists e, fst (q_is_valid ord (new_query q)) = Err e) <-> exists x, looked x n /\ halts x)
  /\ (fst (q_is_valid ord (new_query q)) = Ok false <-> (~ exists x, looked x n /\ halts x) /\ exists x, looked x n /\ faulty x)
  /\ (fst (q_is_valid ord (new_query q)) = Ok true <-> (~ exists x, looked x n /\ halts x) /\ ~ exists x, looked x n /\ faulty x).
Proof.
  intros q n ord O P S W T. pose proof (proj2 T) as A.
  assert (Sh : shaped2 n = true) by (unfold shaped2, shaped; unfold statement in W; rewrite W; destruct n; try discriminate S; apply orb_true_r).
  pose proof (decides ord O n Sh A) as D.
  assert (HH : forall es, validate ord [star] n = Ok es -> ~ exists x, looked x n /\ halts x) by (intros es V (x & L & Hx); eapply looked_halts; eauto).
  assert (HF : forall es, validate ord [star] n = Ok es -> (exists x, looked x n /\ faulty x) -> es <> []) by (intros es V (x & L & Fx); eapply looked_faulty; eauto).
  destruct (validate ord [star] n) as [es|e] eqn:V.
  - assert (Q : fst (q_is_valid ord (new_query q)) = Ok (match es with [] => true | _ => false end)).
    { rewrite (errors_is_valid q ord es); [reflexivity|]. unfold errors_of. rewrite P. cbn [rbind]. destruct n; try discriminate S. cbn [validate_top]. rewrite top_star; auto. }
    rewrite Q. specialize (HH es eq_refl). specialize (HF es eq_refl). destruct D as [(es' & E & Ds)|D]; [injection E as <-|contradiction].
    split; [split; [intros (e & E); discriminate E|intros X; contradiction]|]. destruct es as [|m es].
    + split; split; intros X; try discriminate X; auto; [destruct X as [_ X]; destruct (HF X); auto|split; auto; intros Y; destruct (HF Y); auto].
    + destruct Ds as [Ds|Ds]; [discriminate Ds|]. split; split; intros X; try discriminate X; auto. destruct X as [_ X]. contradiction.
  - destruct D as [(es & E & _)|D]; [discriminate E|].
    assert (Q : fst (q_is_valid ord (new_query q)) = Err e).
    { pose proof (validate_exn ord n []) as X. rewrite top_star, V in X; auto. unfold q_is_valid, q_validate, get_ast, new_query. cbn [q_validated q_ast q_sql q_errors].
      rewrite P. destruct n; try discriminate S. cbn [rbind validate_top]. rewrite top_star, V; auto. cbn in X. destruct e; try reflexivity. exfalso. clear -X. cbn in X. intuition discriminate. }
    rewrite Q. split; [split; eauto|]. split; split; intros X; try discriminate X; destruct X as [X _]; contradiction.
Qed.

(** ** A decision procedure, for examples *)
Fixpoint tablesb (f : node) : bool :=
  match f with
  | NTable _ _ => true
  | NParen [a] => tablesb a
  | NJoin _ l r _ _ => tablesb l && tablesb r
  | _ => false
  end.
Lemma tablesb_ok : forall f, tablesb f = true -> tables f.
Proof.
  induction f as [f IH] using node_ind'. intros T. destruct f; try discriminate T.
  - destruct args as [|a [|b r]]; try discriminate T. constructor. apply IH; [cbn; auto|exact T].
  - constructor.
  - cbn [tablesb] in T. apply andb_true_iff in T as [T1 T2]. constructor; apply IH; cbn; auto.
Qed.
Definition on_tablesb (n : node) : bool :=
  match from_of n with Some _ => true | None => false end
  && forallb (fun s => match from_of s with Some f => tablesb f | None => true end) (all_parts n).
Lemma on_tablesb_ok : forall n, on_tablesb n = true -> on_tables n.
Proof.
  intros n H. unfold on_tablesb in H. apply andb_true_iff in H as [H1 H2]. split; [destruct (from_of n); [eauto|discriminate H1]|].
  intros s f L E. rewrite forallb_forall in H2. apply looked_occurs in L. apply parts_ok with (k := size n) in L; auto. apply H2 in L. rewrite E in L. apply tablesb_ok. auto.
Qed.
Lemma statement_without : forall n, is_sel n = true -> statement n = true -> statement (without_from n) = true.
Proof.
  intros n S W. unfold statement in *. destruct n; try discriminate S. cbn [without_from with_semi] in *. rewrite wf_select, !andb_true_iff in *. cbn [oall]. tauto.
Qed.
