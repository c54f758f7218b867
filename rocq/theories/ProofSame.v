(** Validating the tree of the printed text: the same errors. *)
From Verif Require Import PyStr PyFloat Lib AstLib Ast Grammar Scan GramTok Render RenderEq GramUp GramAlike Validate Api Tokeniser Parser SpecVal SpecRound SpecSame GramStmt GramCase GramRound.
Local Open Scope str_scope.
Local Open Scope list_scope.

Lemma steady_in : forall c n, In c (children n) -> steady n -> steady c.
Proof. intros c n I S v O. apply S. eapply occurs_in; eauto. Qed.
Lemma steady_col : forall v, steady (NColumn v) -> column_text v = v.
Proof. intros v S. unfold column_text. destruct (mem v COLUMN_KEYWORDS) eqn:E; auto. apply mem_In in E. destruct (S v); auto. constructor. Qed.

Lemma return_type_up : forall n, return_type (up n) = return_type n.
Proof.
  apply node_ind'. intros n IH. destruct n; try reflexivity; cbn [up return_type]; try (apply IH; child).
  - destruct args as [|a l]; auto. cbn [map]. apply IH. child.
  - destruct (str_eqb _ _); reflexivity.
Qed.

Lemma unparen_other : forall n, is_paren n = false -> unparen n = Ok n.
Proof. intros n H. destruct n; auto. discriminate H. Qed.
Lemma unparen_up : forall n, unparen (up n) = (x <- unparen n ;; Ok (up x)).
Proof.
  apply node_ind'. intros n IH. destruct (is_paren n) eqn:E; [|rewrite !unparen_other; auto; rewrite up_paren; auto].
  destruct n; try discriminate E. destruct args as [|a l]; [reflexivity|]. cbn [up map unparen]. apply IH. child.
Qed.
Lemma unparen_in : forall n x, unparen n = Ok x -> occurs x n.
Proof.
  apply (node_ind' (fun n => forall x, unparen n = Ok x -> occurs x n)). intros n IH x H. destruct (is_paren n) eqn:E.
  - destruct n; try discriminate E. destruct args as [|a l]; [discriminate H|]. cbn [unparen] in H. eapply occurs_in; [|apply IH; eauto]; child.
  - rewrite unparen_other in H by auto. injection H as <-. constructor.
Qed.
Lemma rconcat_up : forall (f g : node -> R (list str)) l, (forall x, In x l -> f (up x) = g x) -> rconcat f (map up l) = rconcat g l.
Proof. intros f g l H. unfold rconcat. rewrite (rmap_up f g); auto. Qed.
Lemma string_aliases_up : forall l, string_aliases (map up l) = string_aliases l.
Proof.
  induction l as [|e l IH]; auto. unfold string_aliases in *. cbn [map flat_map]. rewrite IH. f_equal.
  destruct e; try reflexivity; [destruct alias; reflexivity|]. rewrite up_cond. destruct (str_eqb _ _); reflexivity.
Qed.
Lemma steady_occ : forall x n, occurs x n -> steady n -> steady x.
Proof. intros x n O S v V. apply S. eapply occurs_trans; eauto. Qed.
Lemma group_up : forall known l a, steady a -> group_arg_errors known (map up l) (up a) = group_arg_errors known l a.
Proof.
  intros known l a S. unfold group_arg_errors. rewrite unparen_up, string_aliases_up, map_length. destruct (unparen a) as [x|e] eqn:E; auto. cbn [rbind].
  apply unparen_in in E. assert (SX := steady_occ _ _ E S). destruct x; try reflexivity.
  - cbn [up]. rewrite (steady_col _ SX). reflexivity.
  - rewrite up_cond. destruct (str_eqb _ _); reflexivity.
Qed.
Lemma count_up : forall a b n, count_errors a b (up n) = count_errors a b n.
Proof.
  intros a b n. unfold count_errors. rewrite unparen_up. destruct (unparen n) as [x|e]; auto. cbn [rbind]. rewrite return_type_up.
  apply bind_ext; auto. intros _. destruct x; try reflexivity. rewrite up_cond. destruct (str_eqb _ _); reflexivity.
Qed.
Lemma order_up : forall c e r r', r = r' -> order_item_errors c (up e) r = order_item_errors c e r'.
Proof.
  intros c e r r' <-. unfold order_item_errors. rewrite unparen_up. destruct (unparen e) as [x|]; auto. cbn [rbind].
  destruct x; try reflexivity. rewrite up_cond. destruct (str_eqb _ _); reflexivity.
Qed.
Lemma resolve_up : forall ord n known, wf Ex n = true -> resolve ord (up n) known = resolve ord n known.
Proof.
  intros ord n known W. unfold resolve. rewrite up_select, return_type_up. destruct (is_select n); auto. destruct (ord known); auto.
  rewrite (render_up n Ex Tr) by (auto; discriminate). auto.
Qed.
Lemma bool_up : forall ord who n known, wf Ex n = true -> bool_errors ord who (up n) known = bool_errors ord who n known.
Proof. intros. unfold bool_errors. rewrite resolve_up; auto. Qed.

Lemma select_field_up : forall e, steady e -> select_field (up e) = select_field e.
Proof.
  intros e S. destruct e; try reflexivity.
  - cbn [up select_field]. rewrite (steady_col _ S). auto.
  - cbn [up select_field]. rewrite return_type_up. apply bind_ext; auto. intros t. destruct alias as [a|x]; auto.
    destruct x; try reflexivity; [|rewrite up_cond; destruct (str_eqb _ _); reflexivity]. cbn [up].
    rewrite (steady_col v); auto. eapply steady_in; [|exact S]. child.
  - rewrite up_cond. destruct (str_eqb _ _); reflexivity.
Qed.
Lemma argok_wf : forall a, argok a = true -> exists c, wf c a = true.
Proof. intros a W. unfold argok in W. destruct (is_sel a); bools; eauto. Qed.
Lemma known_other : forall n, (match n with NSelect _ _ _ _ _ _ _ _ _ _ _ _ | NParen _ | NAlias _ _ _ | NTable _ _ | NJoin _ _ _ _ _ => false | _ => true end) = true ->
  known_fields n = Err AttributeError.
Proof. intros n H. destruct n; auto; discriminate H. Qed.
Lemma known_up : forall n c, wf c n = true -> steady n -> known_fields (up n) = known_fields n.
Proof.
  apply (node_inside_ind (fun n => forall c, wf c n = true -> steady n -> known_fields (up n) = known_fields n)). intros n IH c W S.
  assert (H : forall x c, inside x n -> wf c x = true -> known_fields (up x) = known_fields x).
  { intros x c' O X. eapply IH; eauto. eapply steady_occ; eauto. apply inside_occurs; auto. }
  clear IH.
  assert (K : forall x c, In x (children n) -> wf c x = true -> known_fields (up x) = known_fields x).
  { intros x c' I X. eapply H; eauto. apply inside_child; auto. }
  destruct n; try reflexivity.
  - destruct c; try discriminate W. rewrite wf_select in W. rewrite !andb_true_iff in W. decompose [and] W. clear W.
    cbn [up known_fields]. rewrite (rmap_up select_field select_field) by (intros x X; apply select_field_up; eapply steady_in; [|exact S]; child).
    apply bind_ext; auto. intros fs. destruct from_ as [f|]; auto. cbn [option_map oall] in *. destruct f; try reflexivity; try discriminate.
    + destruct args as [|f [|? ?]]; try discriminate. cbn [up map].
      match goal with X : wf Fr (NParen [f]) = true |- _ => rename X into W end. change ((if is_sel f || is_wth f then wf St f else wf Fr f) = true) in W.
      destruct f; try reflexivity; try discriminate W. cbn [up]. 
      match goal with |- rbind (known_fields ?x) _ = rbind (known_fields ?y) _ => change x with (up y); rewrite (H y St); auto; apply (inside_child2 _ (NParen [y])); [child|left; reflexivity] end.
  - destruct args as [|a l]; [reflexivity|]. cbn [up map known_fields]. assert (X : exists c, wf c a = true).
    { destruct c; try discriminate W; [rewrite wf_paren in W; cbn [forallb] in W; bools; apply argok_wf; auto|].
      destruct l; try discriminate W. change ((if is_sel a || is_wth a then wf St a else wf Fr a) = true) in W. destruct (is_sel a || is_wth a); eauto. }
    destruct X as [c' X]. rewrite (K a c') by (auto; child). auto.
  - assert (X : (exists c, wf c n = true) /\ forall x, alias = inr x -> wf Ex x = true).
    { destruct c; try discriminate W; [rewrite wf_alias in W|rewrite wf_falias in W]; bools; (split; [eauto|]).
      - intros x ->. unfold aliasok in *. destruct with_as; bools; auto.
      - intros x ->. cbn [alsok] in *. bools. auto. }
    destruct X as [[c' X] A]. cbn [up known_fields]. rewrite (K n c') by (auto; child). apply bind_ext; auto. intros fs. f_equal.
    destruct alias as [t|x]; auto. apply (render_up x Ex); auto. discriminate.
  - destruct c; try discriminate W. rewrite wf_join in W. bools.
    assert (Q : forall x, In x [n1; n2] -> wf Fr x = true ->
      (match up x with NAlias e a _ => fs <- known_fields e ;; alias_fields (match a with inl s => Ok s | inr _ => Err TypeError end) fs | _ => known_fields (up x) end)
      = (match x with NAlias e a _ => fs <- known_fields e ;; alias_fields (match a with inl s => Ok s | inr _ => Err TypeError end) fs | _ => known_fields x end)).
    { intros x I V. assert (I' : In x (children (NJoin ty n1 n2 on_ using_))) by (destruct I as [<-|[<-|[]]]; child).
      assert (Y := K x Fr I' V). destruct x; try exact Y; try discriminate V.
      - rewrite wf_falias in V. bools. cbn [up]. rewrite (H x Fr); auto.
        + destruct alias; auto.
        + eapply inside_child2; [exact I'|]. child. }
    cbn [up known_fields]. rewrite (Q n1), (Q n2) by (auto; cbn; auto). auto.
  - cbn [up known_fields]. rewrite !known_other; auto. destruct (str_eqb _ _); auto.
Qed.
Lemma visible_up : forall known f, oall (wf Fr) f = true -> (forall x, f = Some x -> steady x) -> visible known (option_map up f) = visible known f.
Proof. intros known [f|] W S; auto. cbn [option_map visible oall] in *. rewrite (known_up f Fr); auto. Qed.

Definition same (n : node) : Prop := forall c ord known, wf c n = true -> steady n -> validate ord known (up n) = validate ord known n.
Section SAME.
Variable n : node.
Hypothesis H : forall x, size x < size n -> same x.
Hypothesis S : steady n.
Lemma sm_at : forall c ord known x, In x (children n) -> wf c x = true -> validate ord known (up x) = validate ord known x.
Proof. intros c ord known x I W. eapply H; eauto using children_size, steady_in. Qed.
Lemma sm_args : forall ord known l, incl l (children n) -> forallb argok l = true -> rconcat (validate ord known) (map up l) = rconcat (validate ord known) l.
Proof.
  intros ord known l I W. apply rconcat_up. intros x X. rewrite forallb_forall in W. destruct (argok_wf _ (W _ X)) as [c V]. eapply sm_at; eauto.
Qed.
Lemma sm_ups : forall k ord known l, incl l (children n) -> forallb (upto k) l = true -> rconcat (validate ord known) (map up l) = rconcat (validate ord known) l.
Proof.
  intros k ord known l I W. apply rconcat_up. intros x X. rewrite forallb_forall in W. specialize (W _ X). apply upto_and in W as [W _]. eapply sm_at; eauto.
Qed.
Lemma sm_items : forall ct ord known l, incl l (children n) -> itemsok l = true ->
  rconcat (fun i => match i with NOrderItem e _ _ => order_item_errors ct e (validate ord known e) | _ => Err TypeError end) (map up l)
  = rconcat (fun i => match i with NOrderItem e _ _ => order_item_errors ct e (validate ord known e) | _ => Err TypeError end) l.
Proof.
  intros ct ord known l I W. apply rconcat_up. intros x X. unfold itemsok in W. apply andb_true_iff in W as [_ W]. rewrite forallb_forall in W. specialize (W _ X).
  destruct x; try discriminate W. cbn [up itemok] in *. bools. apply order_up. eapply H; eauto.
  - eapply Nat.lt_trans; [|apply children_size, I, X]. apply children_size. left; auto.
  - eapply steady_in; [|eapply steady_in; [apply I, X|exact S]]. left; auto.
Qed.
End SAME.
Lemma sm_case : forall n, (forall x, size x < size n -> same x) -> steady n -> wf Ex n = true -> forall ord known, validate ord known (up n) = validate ord known n.
Proof.
  intros n H S W ord known. destruct n; try discriminate W; try reflexivity.
  - rewrite wf_fun in W. bools. cbn [up validate]. apply (sm_args _ H S); auto. intros x X; child.
  - rewrite wf_cast in W. bools. cbn [up validate]. rewrite (sm_at _ H S Ex); auto. child.
  - rewrite wf_count in W. bools. cbn [up validate]. apply (sm_args _ H S); auto. intros x X; child.
  - rewrite wf_arrayagg in W. bools. cbn [up validate]. apply (sm_at _ H S Ex); auto. child.
  - rewrite wf_filtered in W. bools. cbn [up validate]. rewrite !(sm_at _ H S Ex) by (auto; child). auto.
  - rewrite wf_analytics in W. bools. cbn [up validate]. rewrite !(sm_at _ H S Ex) by (auto; child).
    apply bind_ext; auto. intros a. apply bind_ext.
    { destruct partition as [l|]; auto. cbn [option_map oall ropt] in *. bools. apply (sm_ups _ H S 4); auto. intros x X; child. }
    intros b. apply bind_ext; auto.
    destruct order as [l|]; auto. cbn [option_map oall ropt] in *. apply (sm_items _ H S); auto. intros x X; child.
  - cbn [up validate]. rewrite (steady_col _ S). auto.
  - rewrite wf_chained in W. bools. cbn [up validate]. unfold chained_errors. rewrite !(render_up n1 Ex), !(render_up n2 Ex); auto; try discriminate. intros _. apply ex_sel; auto.
  - rewrite wf_paren in W. cbn [up validate]. apply (sm_args _ H S); auto. intros x X; child.
  - rewrite wf_alias in W. bools. cbn [up validate]. apply (sm_at _ H S Ex); auto. child.
  - rewrite up_cond. rewrite wf_cond in W. destruct (str_eqb (lower pred) "between") eqn:B.
    + destruct n2; try (rewrite andb_false_r in W; discriminate W). bools. subst. cbn [up btw validate]. rewrite lower_upper, B.
      rewrite (sm_at _ H S Ex) by (auto; child).
      assert (Q : forall x, In x [n2_1; n2_2] -> wf Ex x = true -> validate ord known (up x) = validate ord known x).
      { intros x I V. assert (J : inside x (NCond n1 pred (NBoolC "and" n2_1 n2_2))) by (apply (inside_child2 _ (NBoolC "and" n2_1 n2_2)); [child|exact I]).
        eapply H; eauto; [|eapply steady_occ; eauto; apply inside_occurs; auto]. destruct J as (d & D & O). apply children_size in D. apply occurs_size in O. lia. }
      rewrite !Q by (auto; cbn; auto). auto.
    + assert (B' : str_eqb (lower (if mem pred ["is not"; "not in"] then pred else upper pred)) "between" = false) by (destruct (mem pred ["is not"; "not in"]); rewrite ?lower_upper; exact B).
      assert (D := B). clear B. rewrite !andb_true_iff in W. decompose [and] W. cbn [validate]. rewrite B', D, !(sm_at _ H S Ex) by (auto; child). auto.
  - rewrite wf_boolc in W. bools. cbn [up validate]. rewrite upper_idem, !(sm_at _ H S Ex), !bool_up by (auto; child). auto.
  - rewrite wf_replace in W. bools. cbn [up validate]. apply rconcat_up. intros x X.
    match goal with A : forallb as_alias _ = true, B : forallb argok _ = true |- _ => rename A into AL; rename B into AR end. rewrite forallb_forall in AL, AR.
    specialize (AL _ X). specialize (AR _ X). destruct x; try discriminate AL. cbn [up]. destruct alias as [t|y]; auto.
    unfold argok in AR. cbn [is_sel] in AR. bools. rewrite wf_alias in *. bools. assert (V : wf Ex y = true) by (unfold aliasok in *; destruct with_as; bools; auto).
    assert (J : inside y (NReplace n args)) by (eapply inside_child2; [right; exact X|]; child).
    eapply H; eauto; [|eapply steady_occ; eauto; apply inside_occurs; auto]. destruct J as (d & D & O). apply children_size in D. apply occurs_size in O. lia.
Qed.
Lemma sm_from : forall n, (forall x, size x < size n -> same x) -> steady n -> wf Fr n = true -> forall ord known, validate ord known (up n) = validate ord known n.
Proof.
  intros n H S W ord known. destruct n; try discriminate W; try reflexivity.
  - destruct args as [|f [|? ?]]; try discriminate W. change ((if is_sel f || is_wth f then wf St f else wf Fr f) = true) in W.
    cbn [up map validate]. change [up f] with (map up [f]). apply rconcat_up. intros x [<-|[]]. destruct (is_sel f || is_wth f); eapply (sm_at _ H S); eauto; child.
  - rewrite wf_falias in W. bools. cbn [up validate]. apply (sm_at _ H S Fr); auto. child.
  - cbn [up validate]. destruct on_, using_; reflexivity.
Qed.
Lemma sm_stmt : forall n, (forall x, size x < size n -> same x) -> steady n -> wf St (with_semi false n) = true -> forall ord known, validate ord known (up n) = validate ord known n.
Proof.
  intros n H S W ord known. destruct n; try discriminate W; try reflexivity. cbn [with_semi] in W.
  rewrite wf_select in W. rewrite !andb_true_iff in W. decompose [and] W. clear W. cbn [up validate].
  rewrite visible_up; [|assumption|intros x ->; eapply steady_in; [|apply S]; child].
  apply bind_ext; auto. intros K. apply bind_ext; [apply (sm_ups _ H S 7); auto; intros x X; child|]. intros e1. apply bind_ext.
  { destruct from_ as [f|]; auto. cbn [option_map oall ropt] in *. apply (sm_at _ H S Fr); auto. child. }
  assert (Q : forall x who, In x (children (NSelect exprs sel_all sel_distinct distinct_on from_ where_ group having order limit offset semi)) -> condok x = true ->
     (a <- validate ord K (up x) ;; b <- bool_errors ord who (up x) K ;; Ok (a ++ b)) = (a <- validate ord K x ;; b <- bool_errors ord who x K ;; Ok (a ++ b))).
  { intros x who I V. unfold condok in V. bools. rewrite (sm_at _ H S Ex), bool_up; auto. }
  intros e2. apply bind_ext.
  { destruct where_ as [w|]; auto. cbn [option_map oall ropt] in *. apply Q; auto. child. }
  intros e3. apply bind_ext.
  { destruct group as [[[l ro] ea]|]; auto. cbn [option_map ropt fst snd] in *. apply rconcat_up. intros x X. apply group_up. eapply steady_in; [|exact S]. child. }
  intros e4. apply bind_ext.
  { destruct having as [h|]; auto. cbn [option_map oall ropt] in *. apply Q; auto. child. }
  intros e5. apply bind_ext.
  { destruct order as [l|]; auto. cbn [option_map oall ropt] in *. rewrite map_length. apply (sm_items _ H S); auto. intros x X; child. }
  intros e6. apply bind_ext.
  { destruct limit as [[b [l|]]|]; auto. cbn [option_map ropt fst snd] in *. apply count_up. }
  intros e7. apply bind_ext; auto.
  destruct offset as [x|]; auto. cbn [option_map ropt]. apply count_up.
Qed.
Lemma wf_semi : forall n, wf St n = true -> n = with_semi false n.
Proof.
  intros n W. destruct n; try discriminate W; cbn [with_semi].
  - rewrite wf_select in W. apply andb_true_iff in W as [_ W]. destruct semi; [discriminate W|reflexivity].
  - rewrite wf_with in W. bools. destruct n; try discriminate. rewrite wf_select in *. bools. destruct semi; [discriminate|reflexivity].
Qed.
Lemma validate_same : forall n, same n.
Proof.
  intros n. remember (size n) as k eqn:E. revert n E. induction k as [k IH] using (well_founded_induction lt_wf). intros n -> c ord known W S.
  assert (H : forall x, size x < size n -> same x) by (intros x X; eapply IH; eauto).
  destruct c; auto using sm_case, sm_from. apply sm_stmt; auto.
  rewrite <- (wf_semi n W). auto.
Qed.
Lemma validate_up : forall n ord known, statement n = true -> steady n -> validate ord known (up n) = validate ord known n.
Proof. intros n ord known W S. apply sm_stmt; auto. intros x _. apply validate_same. Qed.
Lemma top_up : forall n ord, statement n = true -> steady n -> validate_top ord (up n) = validate_top ord n.
Proof.
  intros n ord W S. assert (V := validate_up n ord [] W S). unfold statement in W. destruct n; try discriminate W; [exact V|reflexivity].
Qed.

(** ** Columns of the tree read back *)
Lemma children_up : forall n, (match n with NUnnest _ _ _ _ | NCond _ _ _ => false | _ => true end) = true -> children (up n) = map up (children n).
Proof.
  intros n H. destruct n; try discriminate H; try reflexivity; cbn [up children]; rewrite ?map_app; cbn [map].
  - destruct distinct_on, from_, where_, group as [[[? ?] ?]|], having, order, limit as [[? [?|]]|], offset; reflexivity.
  - rewrite !map_map. reflexivity.
  - destruct order; reflexivity.
  - rewrite map_app. destruct partition, order; reflexivity.
  - destruct alias; reflexivity.
  - rewrite map_app. destruct on_, using_; reflexivity.
  - rewrite !map_map. destruct e, els; reflexivity.
Qed.
Lemma occ_iff : forall x n, occurs x n <-> x = n \/ exists c, In c (children n) /\ occurs x c.
Proof. intros x n. split; [intros H; inversion H; subst; eauto|]. intros [->|(c & I & O)]; [constructor|eapply occurs_in; eauto]. Qed.
Lemma occ_same : forall a b w, is_column a = false -> is_column b = false -> children a = children b -> occurs (NColumn w) a <-> occurs (NColumn w) b.
Proof.
  intros a b w A B E. rewrite !occ_iff, E. split; (intros [<-|X]; [discriminate|auto]).
Qed.
Lemma occ_unn : forall e w, occurs (NColumn w) (unn e) <-> occurs (NColumn w) e.
Proof.
  intros e w. destruct e; try reflexivity; [apply occ_same; auto|]. destruct e; try reflexivity. cbn [unn].
  rewrite (occ_iff _ (NAlias (NFun "unnest" args) alias with_as)), (occ_iff _ (NAlias (NFun name args) alias with_as)). cbn [children].
  assert (X : occurs (NColumn w) (NFun "unnest" args) <-> occurs (NColumn w) (NFun name args)) by (apply occ_same; auto).
  split; (intros [E|(c & [<-|I] & O)]; [discriminate E|right; eexists; split; [left; reflexivity|tauto]|right; exists c; split; [right; auto|auto]]).
Qed.
Lemma occ_btw : forall e w, occurs (NColumn w) (btw e) <-> occurs (NColumn w) e.
Proof. intros e w. destruct e; try reflexivity. apply occ_same; auto. Qed.
Lemma columns_up : forall n w, occurs (NColumn w) (up n) <-> exists v, occurs (NColumn v) n /\ w = column_text v.
Proof.
  apply (node_ind' (fun n => forall w, occurs (NColumn w) (up n) <-> exists v, occurs (NColumn v) n /\ w = column_text v)). intros n IH w.
  destruct (is_column n) eqn:C.
  { destruct n; try discriminate C. cbn [up]. rewrite occ_iff. cbn [children]. split.
    - intros [E|(c & [] & _)]. injection E as ->. exists v. split; [constructor|auto].
    - intros (u & O & ->). rewrite occ_iff in O. cbn [children] in O. destruct O as [E|(c & [] & _)]. injection E as ->. left; auto. }
  assert (K : occurs (NColumn w) (up n) <-> exists c, In c (children n) /\ occurs (NColumn w) (up c)).
  { destruct (match n with NUnnest _ _ _ _ | NCond _ _ _ => false | _ => true end) eqn:E.
    - rewrite occ_iff, (children_up n E). split.
      + intros [X|(c & I & O)]; [assert (Y := up_column n); rewrite <- X in Y; rewrite C in Y; discriminate Y|]. apply in_map_iff in I as (d & <- & I). eauto.
      + intros (c & I & O). right. exists (up c). split; auto. apply in_map; auto.
    - destruct n; try discriminate E.
      + rewrite up_unnest, occ_iff. cbn [children]. split.
        * intros [X|(c & [<-|[]] & O)]; [discriminate X|]. exists n. split; [left; auto|]. apply occ_unn; auto.
        * intros (c & [<-|[]] & O). right. eexists. split; [left; reflexivity|]. apply occ_unn; auto.
      + rewrite up_cond. assert (X : forall a p b, occurs (NColumn w) (NCond a p b) <-> occurs (NColumn w) a \/ occurs (NColumn w) b).
        { intros a p b. rewrite occ_iff. cbn [children]. split; [intros [Y|(c & [<-|[<-|[]]] & O)]; [discriminate Y|auto|auto]|].
          intros [O|O]; right; eexists; (split; [|exact O]); cbn; auto. }
        assert (Y : (exists c, In c (children (NCond n1 pred n2)) /\ occurs (NColumn w) (up c)) <-> occurs (NColumn w) (up n1) \/ occurs (NColumn w) (up n2)).
        { cbn [children]. split; [intros (c & [<-|[<-|[]]] & O); auto|]. intros [O|O]; eexists; (split; [|exact O]); cbn; auto. }
        rewrite Y. destruct (str_eqb _ _); rewrite X, ?occ_btw; reflexivity. }
  rewrite K. split.
  - intros (c & I & O). apply (IH c I) in O as (v & O & ->). exists v. split; auto. eapply occurs_in; eauto.
  - intros (v & O & ->). rewrite occ_iff in O. destruct O as [<-|(c & I & O)]; [discriminate C|]. exists c. split; auto. apply (IH c I). eauto.
Qed.
Lemma keywords_lower : forall v, In v COLUMN_KEYWORDS -> lower v = v.
Proof. intros v H. cbn in H. repeat (destruct H as [<-|H]; [reflexivity|]). contradiction. Qed.
Lemma plainly_steady : forall n, plainly n -> steady n.
Proof. intros n P v O I. apply (P v O). rewrite keywords_lower; auto. Qed.
Lemma lower_column : forall v, lower (column_text v) = lower v.
Proof. intros v. unfold column_text. destruct (mem _ _); auto using lower_upper. Qed.
Lemma plainly_up : forall n n', up n' = up n -> plainly n -> plainly n'.
Proof.
  intros n n' U P v O I. assert (X : occurs (NColumn (column_text v)) (up n')) by (apply columns_up; eauto). rewrite U in X.
  apply columns_up in X as (u & X & E). apply (P u X). rewrite <- lower_column, <- E, lower_column. auto.
Qed.

(** ** The theorems *)
Lemma verdict_eq : forall ord a, verdict ord a = match errors_of ord a with
  | Ok [] => Ok true | Ok _ => Ok false | Err (ParsingError _) => Ok false | Err e => Err e end.
Proof.
  intros ord a. unfold verdict, q_is_valid, q_validate, get_ast, errors_of. cbn [q_validated new_query q_ast q_sql q_errors fst snd].
  destruct (parse_sql a) as [n|e]; cbn [rbind].
  - destruct (validate_top ord n) as [[|? ?]|[]]; reflexivity.
  - destruct e; reflexivity.
Qed.
Lemma verdict_errors : forall ord a b, errors_of ord a = errors_of ord b -> verdict ord a = verdict ord b.
Proof. intros ord a b H. rewrite !verdict_eq, H. auto. Qed.
Theorem format_keeps_verdict : forall q n, parse_sql q = Ok n -> statement n = true -> steady n ->
  exists t, format_sql q = Ok t /\ forall ord, errors_of ord t = errors_of ord q /\ verdict ord t = verdict ord q.
Proof.
  intros q n P W S. destruct (round_trip n W) as (t & R & _ & Pt & _). exists t. split; [unfold format_sql; rewrite P; exact R|]. intros ord.
  assert (E : errors_of ord t = errors_of ord q) by (unfold errors_of; rewrite P, Pt; cbn [rbind]; apply top_up; auto).
  split; auto. apply verdict_errors; auto.
Qed.
Lemma errors_written : forall ord n q ts, statement n = true -> plainly n -> to_tokens q = (ts, None) -> Forall2 reads (entries n) ts ->
  errors_of ord q = validate_top ord n.
Proof.
  intros ord n q ts W S TT H. destruct (respell n W ts H) as (n' & W' & U & SP).
  assert (P : parse_sql q = Ok n') by (unfold parse_sql; rewrite TT; apply parse_spelling; auto).
  unfold errors_of. rewrite P. cbn [rbind]. rewrite <- (top_up n'), U by (auto; apply plainly_steady; eapply plainly_up; eauto). apply top_up; auto using plainly_steady.
Qed.
Theorem case_keeps_verdict : forall n q1 q2 ts1 ts2, statement n = true -> plainly n
  -> to_tokens q1 = (ts1, None) -> Forall2 reads (entries n) ts1
  -> to_tokens q2 = (ts2, None) -> Forall2 reads (entries n) ts2
  -> forall ord, errors_of ord q1 = errors_of ord q2 /\ verdict ord q1 = verdict ord q2.
Proof.
  intros n q1 q2 ts1 ts2 W S T1 H1 T2 H2 ord. assert (E : errors_of ord q1 = errors_of ord q2) by (rewrite (errors_written ord n q1 ts1), (errors_written ord n q2 ts2); auto).
  split; auto. apply verdict_errors; auto.
Qed.

(** Deciding the hypotheses, for the examples *)
Fixpoint columns (fuel : nat) (n : node) : list str :=
  match fuel with
  | 0 => []
  | S k => match n with NColumn v => [v] | _ => flat_map (columns k) (children n) end
  end.
Lemma columns_all : forall k n v, occurs (NColumn v) n -> size n <= k -> In v (columns k n).
Proof.
  induction k as [|k IH]; intros n v O L; [destruct n; cbn in L; lia|]. cbn [columns]. rewrite occ_iff in O. destruct O as [<-|(c & I & O)]; [left; auto|].
  assert (X : In v (flat_map (columns k) (children n))) by (apply in_flat_map; exists c; split; auto; apply IH; auto; apply children_size in I; lia).
  destruct n; auto. destruct I.
Qed.
Lemma plainly_check : forall n, forallb (fun v => negb (mem (lower v) COLUMN_KEYWORDS)) (columns (size n) n) = true -> plainly n.
Proof.
  intros n H v O I. rewrite forallb_forall in H. specialize (H v (columns_all _ _ _ O (le_n _))). apply mem_In in I. rewrite I in H. discriminate.
Qed.
