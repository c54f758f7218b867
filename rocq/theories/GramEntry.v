(** What the formatter writes for the entries of a tree is the token list of its text. *)
From Verif Require Import PyStr PyFloat Lib Digits AstLib Ast Grammar Scan GramTok GramExpr Render RenderEq LexText GramUp GramAlike GramText GramFrom SpecRound.
Local Open Scope str_scope.
Local Open Scope list_scope.

Definition pr (n : node) : list str := map prints (entries n).
Lemma pr_list : forall l, map prints (listed (map entries l)) = joint_toks [","] (map pr l).
Proof.
  induction l as [|x l IH]; auto. destruct l as [|y l]; auto. change (listed (map entries (x :: y :: l))) with (entries x ++ Name "," :: listed (map entries (y :: l))).
  rewrite map_app. cbn [map prints]. cbn [map] in IH. rewrite IH. reflexivity.
Qed.
Lemma pr_words : forall s, map prints (words s) = split 32 (upper s).
Proof. intros s. unfold words. rewrite map_map. rewrite <- (upper_lower s), split_upper. reflexivity. Qed.
Lemma prints_lower : forall s, prints (Word (lower s)) = upper s.
Proof. intros s. cbn [prints]. apply upper_lower. Qed.

Definition PE (n : node) : Prop := forall c, wf c n = true -> pr n = ct n.
Section P.
Variable n : node.
Hypothesis IH : forall x, size x < size n -> PE x.
Lemma e_ch : forall c x, In x (children n) -> wf c x = true -> map prints (entries x) = map canon (toks (up x)).
Proof. intros c x I W. apply (IH x) with c; auto. apply children_size; auto. Qed.
Lemma e_list : forall l, (forall x, In x l -> pr x = ct x) -> map prints (listed (map entries l)) = map canon (commas (map toks (map up l))).
Proof. intros l H. rewrite pr_list, ct_list. f_equal. apply map_ext_in. auto. Qed.
Lemma e_arg : forall x, size x < size n -> argok x = true -> pr x = ct x.
Proof. intros x S W. unfold argok in W. destruct (is_sel x); bools; eapply IH; eauto. Qed.
Lemma e_args : forall l, incl l (children n) -> forallb argok l = true -> map prints (listed (map entries l)) = map canon (commas (map toks (map up l))).
Proof. intros l S W. apply e_list. intros x X. rewrite forallb_forall in W. apply e_arg; auto. apply children_size; auto. Qed.
Lemma e_uptos : forall k l, incl l (children n) -> forallb (upto k) l = true -> map prints (listed (map entries l)) = map canon (commas (map toks (map up l))).
Proof. intros k l S W. apply e_list. intros x X. rewrite forallb_forall in W. specialize (W x X). bools. eapply IH; eauto. apply children_size; auto. Qed.
Lemma e_items : forall l, incl l (children n) -> itemsok l = true -> map prints (listed (map entries l)) = map canon (commas (map toks (map up l))).
Proof.
  intros l S W. apply e_list. intros x X. unfold itemsok in W. bools. match goal with V : forallb itemok _ = true |- _ => rewrite forallb_forall in V; specialize (V x X) end. destruct x; try discriminate.
  cbn [itemok] in *. bools. unfold pr, ct. cbn [entries up toks]. rewrite !map_app. f_equal.
  - apply (IH x) with Ex; auto. eapply Nat.lt_trans; [|apply children_size, S, X]. apply children_size. left; auto.
  - destruct asc; auto. destruct desc; auto.
Qed.
Lemma e_als : forall a, alsok a = true -> map prints (match a with inl t => [Name t] | inr x => entries x end) = map canon (match (match a with inl t => inl t | inr x => inr (up x) end) with inl t => [Id t] | inr x => toks x end).
Proof.
  intros a A. destruct a as [t|x]; auto. cbn [alsok] in A. bools. destruct x; try discriminate. cbn [up entries toks]. destruct v; reflexivity.
Qed.
End P.
Ltac em := repeat (progress (rewrite ?map_app; cbn [app map])). 
Ltac ch IH := first [eapply (e_ch _ IH); [child|eassumption] | apply (e_args _ IH); [intros ? ?; child|assumption] | eapply (e_uptos _ IH); [intros ? ?; child|eassumption] | apply (e_items _ IH); [intros ? ?; child|assumption]].
Ltac eqs IH := repeat first [reflexivity | ch IH | apply f_equal2].
Lemma pe_exp : forall n, (forall x, size x < size n -> PE x) -> wf Ex n = true -> pr n = ct n.
Proof.
  intros n IH W. unfold pr, ct. destruct n; try discriminate W.
  - rewrite wf_fun in W. bools. cbn [entries up toks]. unfold round, parens. em. rewrite prints_lower. eqs IH.
  - rewrite wf_cast in W. bools. cbn [entries up toks]. unfold round, parens. em. rewrite prints_lower. eqs IH.
  - rewrite wf_count in W. bools. cbn [entries up toks]. unfold round, parens. destruct distinct; em; eqs IH.
  - rewrite wf_arrayagg in W. bools. cbn [entries up toks]. unfold round, parens. destruct limit as [z|]; [assert (Y : Z.abs z = z) by (cbn [oall] in *; match goal with X : (0 <? z)%Z = true |- _ => apply Z.ltb_lt in X end; lia); rewrite Y|];
    destruct order, distinct, ignore_nulls; cbn [option_map oall] in *; em; eqs IH.
  - rewrite wf_filtered in W. bools. cbn [entries up toks]. unfold round, parens. em. eqs IH.
  - rewrite wf_analytics in W. bools. cbn [entries up toks]. unfold round, parens.
    assert (X : map prints (match frame with Some (rr, f) => Word (lower rr) :: words f | None => [] end) = map canon (match option_map (fun f => (upper (fst f), upper (snd f))) frame with Some (rr, f) => Id rr :: map Id (split 32 f) | None => [] end)).
    { destruct frame as [[rr f]|]; auto. cbn [option_map fst snd map]. rewrite prints_lower, pr_words, map_map. cbn [canon]. rewrite map_id. auto. }
    em. rewrite X. destruct partition, order; cbn [option_map oall] in *; bools; em; eqs IH.
  - reflexivity.
  - rewrite wf_chained in W. bools. cbn [entries up toks]. em. eqs IH.
  - rewrite wf_datepart in W. bools. cbn [entries up toks]. em. rewrite prints_lower. eqs IH.
  - destruct v; reflexivity.
  - cbn [entries up toks]. destruct (_ <? _)%Z; reflexivity.
  - cbn [entries up toks]. rename text into t. destruct t as [|c t]; auto. destruct c as [|c]; auto. do 6 (destruct c as [c|c|]; auto).
  - reflexivity.
  - destruct b; reflexivity.
  - rewrite wf_paren in W. cbn [entries up toks]. unfold round, parens. em. eqs IH.
  - rewrite wf_array in W. cbn [entries up toks]. unfold square, Grammar.brackets. em. eqs IH.
  - rewrite wf_alias in W. bools. cbn [entries up toks].
    assert (X : map prints (match alias with inl t => [Name t] | inr x => entries x end) = map canon (match (match alias with inl t => inl t | inr x => inr (up x) end) with inl t => [Id t] | inr x => toks x end)).
    { match goal with V : aliasok _ _ _ = true |- _ => unfold aliasok in V end. destruct alias as [t|x]; auto.
      assert (WX : wf Ex x = true) by (destruct with_as; bools; auto). ch IH. }
    rewrite !map_app, X. destruct with_as; eqs IH.
  - rewrite wf_index in W. bools. cbn [entries up toks]. unfold square, Grammar.brackets. em. eqs IH.
  - rewrite wf_arith in W. bools. cbn [entries up toks]. em. eqs IH.
  - rewrite wf_bitwise in W. bools. cbn [entries up toks]. em. eqs IH.
  - rewrite up_cond. rewrite wf_cond in W. bools. destruct (str_eqb (lower pred) "between") eqn:B; [|].
    + destruct n2; try discriminate. bools. subst. cbn [entries up btw toks]. rewrite lower_upper, B. apply str_eqb_eq in B.
      assert (M : mem pred ["is not"; "not in"] = false) by (apply mem_false; intros [<-|[<-|[]]]; discriminate B). rewrite M.
      assert (A1 := fun S => IH n2_1 S Ex ltac:(auto)). assert (A2 := fun S => IH n2_2 S Ex ltac:(auto)). unfold pr, ct in *.
      em. rewrite A1, A2 by (cbn [size]; lia). cbn [prints canon]. change (str_eqb "between" "between") with true. cbv iota. rewrite map_app. cbn [map]. rewrite map_app. cbn [map]. assert (BU : upper pred = upper "between") by (rewrite <- (upper_lower pred); f_equal; first [assumption|apply str_eqb_eq; assumption]). cbn [canon]. rewrite BU. eqs IH.
    + bools. cbn [entries toks]. assert (D : str_eqb (lower (if mem pred ["is not"; "not in"] then pred else upper pred)) "between" = false) by (destruct (mem pred ["is not"; "not in"]); rewrite ?lower_upper; auto).
      rewrite D. destruct (mem pred ["is not"; "not in"]) eqn:M.
      * rewrite M. em. rewrite pr_words, canon_kws. eqs IH.
      * rewrite up_mem_pred by auto. em. rewrite prints_lower. eqs IH.
  - rewrite wf_boolc in W. bools. cbn [entries up toks]. em. rewrite prints_lower. eqs IH.
  - rewrite wf_neg in W. bools. cbn [entries up toks]. em. eqs IH.
  - rewrite wf_except in W. bools. cbn [entries up toks]. unfold round, parens. em. eqs IH.
  - rewrite wf_replace in W. bools. cbn [entries up toks]. unfold round, parens. em. eqs IH.
  - rewrite wf_case in W. bools. cbn [entries up toks].
    assert (X : map prints (flat_map (fun wt => Word "when" :: entries (fst wt) ++ Word "then" :: entries (snd wt)) whens)
       = map canon (flat_map (fun wt => Kw "when" :: toks (fst wt) ++ Kw "then" :: toks (snd wt)) (map (fun wt => (up (fst wt), up (snd wt))) whens))).
    { assert (Q : forall q, In q whens -> size (fst q) < size (NCase e whens els) /\ size (snd q) < size (NCase e whens els)).
      { intros q I. split; apply children_size; cbn [children]; apply in_or_app; right; apply in_or_app; [left; apply in_map; auto|right; apply in_or_app; left; apply in_map; auto]. }
      match goal with V : forallb wtok whens = true |- _ => revert V end. set (k := size (NCase e whens els)) in *. clearbody k. clear - IH Q. induction whens as [|q l I]; auto. cbn [forallb]. intros V. apply andb_true_iff in V as [V1 V2].
      cbn [map flat_map fst snd]. rewrite !map_app, I by (auto; intros; apply Q; right; auto). f_equal. cbn [map]. rewrite !map_app. cbn [map]. destruct (Q q (or_introl eq_refl)). unfold wtok in V1. bools.
      assert (A1 := IH (fst q) ltac:(auto) Ex ltac:(auto)). assert (A2 := IH (snd q) ltac:(auto) Ex ltac:(auto)). unfold pr, ct in *. rewrite A1, A2. reflexivity. }
    em. rewrite X. destruct e, els; cbn [oall option_map] in *; bools; em; eqs IH.
Qed.
Lemma pe_from : forall n, (forall x, size x < size n -> PE x) -> wf Fr n = true -> pr n = ct n.
Proof.
  intros n IH W. unfold pr, ct. destruct n; try discriminate W.
  - destruct args as [|f [|? ?]]; try discriminate W. change ((if is_sel f || is_wth f then wf St f else wf Fr f) = true) in W. cbn [entries up toks map listed commas]. unfold round, parens. em.
    destruct (_ || _); eqs IH.
  - rewrite wf_falias in W. bools. cbn [entries up toks]. rewrite !map_app. rewrite (e_als alias) by auto. destruct with_as; eqs IH.
  - rewrite wf_table in W. assert (WV : wf Ex n = true) by (destruct brackets; [|unfold tableok in W]; bools; auto). cbn [entries up toks]. unfold square, Grammar.brackets. destruct brackets; em; eqs IH.
  - rename alias into al0. rewrite wf_unnest in W. bools. match goal with V : unnestok n = true |- _ => rename V into U end.
    assert (S0 : size n < size (NUnnest n with_offset with_offset_as al0)) by (apply children_size; left; auto).
    assert (T0 : map prints (if with_offset then Word "with" :: Word "offset" :: match al0 with Some a => (if with_offset_as then [Word "as"] else []) ++ [Name a] | None => [] end else [])
      = map canon (if with_offset then Kw "with" :: Kw "offset" :: match al0 with Some a => (if with_offset_as then [Kw "as"] else []) ++ [Id a] | None => [] end else [])).
    { destruct with_offset, with_offset_as, al0; reflexivity. }
    cbn [entries]. rewrite up_unnest. cbn [toks]. rewrite map_app, T0. rewrite map_app. f_equal. clear T0.
    unfold unnestok in U. destruct n; try discriminate U; [|destruct n; try discriminate U]; bools; subst.
    + cbn [up unn toks entries]. unfold round, parens. em. assert (X : forall x, In x args -> pr x = ct x).
      { intros x X. match goal with V : forallb argok args = true |- _ => rewrite forallb_forall in V; specialize (V x X) end. eapply e_arg; eauto. eapply Nat.lt_trans; [|exact S0]. apply children_size. exact X. }
      rewrite (e_list args) by auto. reflexivity.
    + cbn [up unn toks entries]. unfold round, parens. em. assert (X : forall x, In x args -> pr x = ct x).
      { intros x X. match goal with V : forallb argok args = true |- _ => rewrite forallb_forall in V; specialize (V x X) end. eapply e_arg; eauto. eapply Nat.lt_trans; [|exact S0]. eapply Nat.lt_trans; [apply (children_size (NFun "unnest" args)); exact X|]. apply children_size. left; auto. }
      rewrite (e_list args) by auto. rewrite (e_als alias) by auto. destruct with_as; em; rewrite <- ?app_assoc; reflexivity.
  - rewrite wf_join in W. bools. match goal with V : joinok _ _ _ _ = true |- _ => unfold joinok in V end. cbn [entries up toks].
    assert (X : map prints (if str_eqb ty "," then [Name ","] else words ty) = map canon (if str_eqb ty "," then [Id ","] else kws ty)) by (destruct (str_eqb ty ","); auto; rewrite pr_words, canon_kws; auto).
    rewrite !map_app, X.
    assert (C : forall o, (o = on_ \/ o = using_) -> (exists m, o = Some m /\ condok m = true) \/ o = None).
    { match goal with V : (if _ then _ else _) = true |- _ => revert V end. clear. intros V o [-> | ->]; destruct (mem ty _), on_, using_; try discriminate V; bools; try discriminate; eauto. }
    assert (D : forall m, (on_ = Some m \/ using_ = Some m) -> map prints (entries m) = map canon (toks (up m))).
    { intros m M. assert (W : wf Ex m = true). { destruct (C (Some m)) as [(m' & E & K)|E]; [intuition|injection E as <-|discriminate E]. unfold condok in K. bools. auto. } eapply (e_ch _ IH); [|eassumption]. cbn [children]. destruct M as [-> | ->]; cbn [olist]; chi. }
    apply f_equal2; [ch IH|]. apply f_equal2; [auto|]. apply f_equal2; [ch IH|]. clear - D. apply f_equal2.
    + destruct on_; auto. cbn [option_map map]. rewrite D by auto. reflexivity.
    + destruct using_; auto. cbn [option_map map]. rewrite D by auto. reflexivity.
  - rewrite wf_combined in W. bools. cbn [entries up toks]. rewrite !map_app, pr_words, canon_kws. destruct (is_sel n2); bools; eqs IH.
Qed.
Lemma pe_stmt : forall n, (forall x, size x < size n -> PE x) -> wf St n = true -> pr n = ct n.
Proof.
  intros n IH W. unfold pr, ct. destruct n; try discriminate W.
  - rewrite wf_select in W. bools. cbn [entries up toks]. cbn [map]. rewrite !map_app.
    apply f_equal2; [reflexivity|].
    apply f_equal2. { destruct sel_all; auto. destruct sel_distinct; auto. cbn [map]. destruct distinct_on; auto. cbn [donok option_map] in *. bools. unfold round, parens. em. eqs IH. }
    apply f_equal2. { ch IH. }
    apply f_equal2. { destruct from_; auto. cbn [oall option_map map] in *. eqs IH. }
    apply f_equal2. { destruct where_; auto. cbn [oall option_map map] in *. unfold condok in *. bools. eqs IH. }
    apply f_equal2. { destruct group as [[[a b] c]|]; auto. cbn [option_map groupok fst snd] in *. bools. destruct b, c; em; eqs IH. }
    apply f_equal2. { destruct having; auto. cbn [oall option_map map] in *. unfold condok in *. bools. eqs IH. }
    apply f_equal2. { destruct order; auto. cbn [oall option_map map] in *. eqs IH. }
    apply f_equal2. { destruct limit as [[[|] [x|]]|]; auto; try discriminate. cbn [limitok option_map map fst snd] in *. bools. eqs IH. }
    apply f_equal2. { destruct offset; auto. cbn [oall option_map map] in *. bools. eqs IH. }
    destruct semi; auto.
  - rewrite wf_with in W. bools. cbn [entries up toks]. cbn [map]. rewrite !map_app. apply f_equal2; [reflexivity|]. apply f_equal2; [|ch IH].
    match goal with V : forallb wqok queries = true |- _ => revert V end.
    assert (SZ : forall q, In q queries -> size (snd q) < size (NWith queries n)).
    { intros q I. apply children_size. cbn [children]. apply in_or_app. left. apply in_map. auto. }
    set (k := size (NWith queries n)) in *. clearbody k. clear - SZ IH. intros V. rewrite map_commas. rewrite !map_map. 
    assert (X : forall l, map prints (listed l) = joint_toks [","] (map (map prints) l)).
    { induction l as [|x l I]; auto. destruct l as [|y l]; auto. change (listed (x :: y :: l)) with (x ++ Name "," :: listed (y :: l)). rewrite map_app. cbn [map prints]. cbn [map] in I. rewrite I. reflexivity. }
    rewrite X. f_equal. rewrite map_map. apply map_ext_in. intros q Q. rewrite forallb_forall in V. specialize (V q Q). unfold wqok in V. bools.
    cbn [fst snd]. unfold round, parens. em. assert (A := IH (snd q) (SZ q Q) St ltac:(auto)). unfold pr, ct in A. rewrite A. reflexivity.
Qed.
Lemma pr_ct : forall n c, wf c n = true -> pr n = ct n.
Proof.
  intros n. remember (size n) as k eqn:E. revert n E. induction k as [k IH] using (well_founded_induction lt_wf). intros n -> c.
  assert (H : forall m, size m < size n -> PE m) by (intros m M c' W; eapply IH; eauto).
  destruct c; auto using pe_exp, pe_from, pe_stmt.
Qed.
