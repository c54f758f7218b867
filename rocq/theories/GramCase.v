(** Every way of writing the entries of a fragment tree is a spelling of the tokens of a fragment
    tree that has the same upper-cased form. *)
From Verif Require Import PyStr PyFloat Lib Digits AstLib Ast Grammar Scan GramTok GramExpr Render RenderEq GramUp GramAlike SpecRound.
Local Open Scope str_scope.
Local Open Scope list_scope.

Notation writes es ss := (Forall2 reads es ss).
Definition RSP (x : node) : Prop := forall c, wf c x = true -> forall ss, writes (entries x) ss ->
  exists x', wf c x' = true /\ up x' = up x /\ spelling (toks x') ss.

(** ** Case *)
Lemma lower_eq_upper : forall s k, lower s = lower k -> upper s = upper k.
Proof. intros s k H. rewrite <- (upper_lower s), H, upper_lower. auto. Qed.
Lemma lower_eq_ident : forall s k, lower s = lower k -> ident s = ident k.
Proof. intros s k H. rewrite <- (ident_upper s), (lower_eq_upper s k H), ident_upper. auto. Qed.
Lemma lower_eq_word : forall s k, lower s = lower k -> word s = word k.
Proof. intros s k H. rewrite <- (word_upper s), (lower_eq_upper s k H), word_upper. auto. Qed.
Lemma lower_sign : forall s p, forallb (fun c => negb (is_lower_c c) && negb (is_upper_c c)) p = true -> lower s = lower p -> s = p.
Proof.
  induction s as [|c s IH]; intros [|d p] F E; try discriminate E; auto. cbn [forallb] in F. apply andb_true_iff in F as [F1 F2]. injection E as E1 E2.
  f_equal; [|apply IH; auto]. apply andb_true_iff in F1 as [A B]. apply negb_true_iff in A, B. unfold lower_c in E1. rewrite B in E1. destruct (is_upper_c c) eqn:U; auto.
  exfalso. unfold is_upper_c, is_lower_c in *. apply andb_true_iff in U as [X Y]. apply N.leb_le in X, Y. subst d. apply andb_false_iff in A as [A|A]; apply N.leb_gt in A; lia.
Qed.
Lemma reads_kws : forall s ss, writes (words s) ss -> spelling (kws s) ss.
Proof. intros s ss. unfold words, kws. generalize (split 32 (lower s)). intros l. revert ss. induction l as [|w l IH]; intros ss H; inversion H; subst; constructor; auto. apply IH. auto. Qed.
Lemma lower_c_space : forall c, N.eqb (lower_c c) 32 = N.eqb c 32.
Proof.
  intros c. unfold lower_c. destruct (is_upper_c c) eqn:U; auto. unfold is_upper_c in U. apply andb_true_iff in U as [A B]. apply N.leb_le in A, B.
  destruct (N.eqb_spec (c + 32) 32), (N.eqb_spec c 32); auto; lia.
Qed.
Lemma split_lower : forall f, split 32 (lower f) = map lower (split 32 f).
Proof.
  induction f as [|c f IH]; auto. cbn [split lower map]. change (map lower_c f) with (lower f). rewrite IH, lower_c_space.
  destruct (N.eqb c 32); [reflexivity|]. destruct (split 32 f); reflexivity.
Qed.
Lemma reads_words : forall f ss, writes (words f) ss -> exists f', lower f' = lower f /\ split 32 f' = ss.
Proof.
  intros f ss H. unfold words in H. rewrite split_lower in H.
  assert (X : Forall2 (fun a b => lower b = lower a) (split 32 f) ss).
  { revert H. generalize (split 32 f). intros l. revert ss. induction l as [|w l IH]; intros ss H; inversion H; subst; constructor; auto. }
  clear H. revert ss X. induction f as [|c f IH]; intros ss X.
  - cbn in X. inversion X as [|a b ? ? L X']; subst. inversion X'; subst. destruct b; [|discriminate L]. exists []. auto.
  - cbn [split] in X. destruct (N.eqb c 32) eqn:E.
    + inversion X as [|a b ? r L X']; subst. destruct b; [|discriminate L]. destruct (IH _ X') as (f' & A & B). exists (32%N :: f'). split; [apply N.eqb_eq in E; subst; cbn [lower map]; f_equal; exact A|]. cbn [split]. rewrite B. reflexivity.
    + destruct (split 32 f) as [|w l] eqn:SP; [inversion X as [|a b ? r L X']; subst; inversion X'; subst|].
      * exfalso. clear - SP. destruct f as [|d f]; cbn in SP; [discriminate|]. destruct (N.eqb d 32); [discriminate|]. destruct (split 32 f); discriminate.
      * inversion X as [|a b ? r L X']; subst. destruct b as [|d b]; [discriminate L|]. injection L as L1 L2. destruct (IH (b :: r)) as (f' & A & B); [constructor; auto|].
        exists (d :: f'). split; [cbn [lower map]; f_equal; auto|]. cbn [split]. rewrite B. assert (Z : N.eqb d 32 = false) by (rewrite <- lower_c_space, L1, lower_c_space; auto). rewrite Z. reflexivity.
Qed.

(** ** Transfer along the upper-cased form *)
Lemma tr : forall {A} (f : node -> A) x x', (forall n, f (up n) = f n) -> up x' = up x -> f x' = f x.
Proof. intros A f x x' H U. rewrite <- (H x'), U, H. auto. Qed.
Lemma tr_starts : forall L x x', up x' = up x -> starts_with L (toks x') = starts_with L (toks x).
Proof. intros L x x' U. apply (tr (fun x => starts_with L (toks x))); auto. intros. apply sim_starts, up_toks. Qed.
Lemma tr_sident : forall x x', up x' = up x -> starts_ident (toks x') = starts_ident (toks x).
Proof. intros x x' U. apply (tr (fun x => starts_ident (toks x))); auto. intros. apply sim_ident, up_toks. Qed.
Lemma up_as : forall e, as_alias (up e) = as_alias e.
Proof. intros e. shape e. Qed.
Definition trs {x x'} (U : up x' = up x) :=
  conj (tr lvl x x' up_lvl U) (conj (tr flvl x x' up_flvl U) (conj (tr is_sel x x' up_sel U) (conj (tr is_wth x x' up_wth U) (conj (tr paren1 x x' up_paren1 U) (tr clausable x x' up_clausable U))))).
Lemma nonnil_up : forall l l', map up l' = map up l -> nonnil l' = nonnil l.
Proof. intros l l' H. rewrite <- (nonnil_map up l'), H, nonnil_map. auto. Qed.

Lemma Forall2_cons_iff_l : forall {A B} (P : A -> B -> Prop) a l s, Forall2 P (a :: l) s -> exists b r, P a b /\ Forall2 P l r /\ s = b :: r.
Proof. intros A B P a l s H. inversion H; subst. eauto. Qed.
Ltac cut_ := repeat match goal with
  | H : writes (_ ++ _) _ |- _ => apply Forall2_app_inv_l in H; destruct H as (? & ? & ? & ? & ->)
  | H : writes (_ :: _) _ |- _ => inversion H; subst; clear H
  | H : writes [] _ |- _ => inversion H; subst; clear H
  | H : reads (Word _) _ |- _ => cbn [reads] in H
  | H : reads (Name _) _ |- _ => cbn [reads] in H; subst
  | H : reads (Col _) _ |- _ => cbn [reads] in H; subst
  end.
Ltac mk := unfold spelling, parens, Grammar.brackets in *; cbn [toks option_map opt_toks]; unfold parens, Grammar.brackets; repeat first [assumption | apply Forall2_nil | apply Forall2_app | apply Forall2_cons; [cbn [spells]; first [reflexivity | assumption | idtac]|]].
Lemma rs_list : forall (ok : node -> bool) l, (forall x, In x l -> ok x = true -> forall ss, writes (entries x) ss -> exists x', ok x' = true /\ up x' = up x /\ spelling (toks x') ss) ->
  forallb ok l = true -> forall ss, writes (listed (map entries l)) ss -> exists l', forallb ok l' = true /\ map up l' = map up l /\ spelling (commas (map toks l')) ss.
Proof.
  intros ok l. induction l as [|x l IH]; intros H W ss S; [inversion S; subst; exists []; repeat split; auto; constructor|].
  cbn [forallb] in W. apply andb_true_iff in W as [W1 W2]. destruct l as [|y l].
  - destruct (H x (or_introl eq_refl) W1 ss S) as (x' & A & B & C). exists [x']. cbn [forallb map]. rewrite A, B. auto.
  - change (writes (entries x ++ Name "," :: listed (map entries (y :: l))) ss) in S. apply Forall2_app_inv_l in S as (s1 & s2 & S1 & S2 & ->). inversion S2 as [|? b ? s3 S3 S4]; subst. clear S2.
    destruct (H x (or_introl eq_refl) W1 s1 S1) as (x' & A & B & C). destruct (IH (fun z Z => H z (or_intror Z)) W2 s3 S4) as (l' & A' & B' & C').
    exists (x' :: l'). cbn [forallb]. rewrite A, A'. split; auto. split; [cbn [map]; f_equal; auto|].
    destruct l' as [|y' l']; [discriminate B'|]. change (spelling (toks x' ++ Id "," :: commas (map toks (y' :: l'))) (s1 ++ b :: s3)). apply Forall2_app; auto; try (constructor; auto).
Qed.
Section R.
Variable n : node.
Hypothesis IH : forall x, size x < size n -> RSP x.
Lemma r_ch : forall x c, In x (children n) -> wf c x = true -> forall ss, writes (entries x) ss -> exists x', wf c x' = true /\ up x' = up x /\ spelling (toks x') ss.
Proof. intros x c I W. apply IH; auto. apply children_size; auto. Qed.
Lemma r_arg : forall x, size x < size n -> argok x = true -> forall ss, writes (entries x) ss -> exists x', argok x' = true /\ up x' = up x /\ spelling (toks x') ss.
Proof.
  intros x S W ss H. unfold argok in W. destruct (is_sel x) eqn:E; bools.
  - destruct (IH x S St) with (ss := ss) as (x' & A & B & C); auto. exists x'. repeat split; auto. unfold argok. rewrite (tr _ x x' up_sel B), E, A, (tr _ x x' up_one B). auto.
  - destruct (IH x S Ex) with (ss := ss) as (x' & A & B & C); auto. exists x'. repeat split; auto. unfold argok. rewrite (tr _ x x' up_sel B), E, A, (tr _ x x' up_lvl B). apply Nat.leb_le. auto.
Qed.
Lemma r_argsz : forall l, (forall x, In x l -> size x < size n) -> forallb argok l = true -> forall ss, writes (listed (map entries l)) ss ->
  exists l', forallb argok l' = true /\ map up l' = map up l /\ spelling (commas (map toks l')) ss.
Proof. intros l S W ss H. eapply (rs_list argok); eauto. intros. apply r_arg; auto. Qed.
Lemma r_args : forall l, incl l (children n) -> forallb argok l = true -> forall ss, writes (listed (map entries l)) ss ->
  exists l', forallb argok l' = true /\ map up l' = map up l /\ spelling (commas (map toks l')) ss.
Proof. intros l S. apply r_argsz. intros. apply children_size; auto. Qed.
Lemma r_upto : forall k x, size x < size n -> upto k x = true -> forall ss, writes (entries x) ss -> exists x', upto k x' = true /\ up x' = up x /\ spelling (toks x') ss.
Proof. intros k x S W ss H. bools. destruct (IH x S Ex) with (ss := ss) as (x' & A & B & C); auto. exists x'. repeat split; auto. unfold upto. rewrite A, (tr _ x x' up_lvl B). apply Nat.leb_le. auto. Qed.
Lemma r_uptos : forall k l, incl l (children n) -> forallb (upto k) l = true -> forall ss, writes (listed (map entries l)) ss ->
  exists l', forallb (upto k) l' = true /\ map up l' = map up l /\ spelling (commas (map toks l')) ss.
Proof. intros k l S W ss H. eapply rs_list; eauto. intros. apply r_upto; auto. apply children_size; auto. Qed.
Lemma r_items : forall l, incl l (children n) -> itemsok l = true -> forall ss, writes (listed (map entries l)) ss ->
  exists l', itemsok l' = true /\ map up l' = map up l /\ spelling (commas (map toks l')) ss.
Proof.
  intros l S W ss H. unfold itemsok in W. apply andb_true_iff in W as [NN W].
  destruct (rs_list itemok l) with (ss := ss) as (l' & A & B & C); auto.
  { intros x X O s H'. destruct x; try discriminate O. cbn [itemok] in O. bools. cbn [entries] in H'. cut_.
    destruct (IH x) with (c := Ex) (ss := x0) as (x' & A & B & C); auto. { eapply Nat.lt_trans; [|apply children_size, S, X]. apply children_size. left; auto. }
    exists (NOrderItem x' asc desc). cbn [itemok up]. rewrite A, B, (tr _ x x' up_lvl B). repeat split.
    - apply andb_true_iff. split; [apply Nat.leb_le; auto|apply negb_true_iff; auto].
    - cbn [toks]. apply Forall2_app; auto. destruct asc, desc; cut_; mk. }
  exists l'. repeat split; auto. unfold itemsok. rewrite (nonnil_up l l') by auto. rewrite NN. auto.
Qed.
Lemma r_als : forall a, alsok a = true -> forall ss, writes (match a with inl t => [Name t] | inr x => entries x end) ss ->
  spelling (match a with inl t => [Id t] | inr x => toks x end) ss.
Proof.
  intros a A ss H. destruct a as [t|x]; [cut_; mk|]. cbn [alsok] in A. bools. destruct x; try discriminate. cbn [entries] in H. destruct v; cut_; mk.
Qed.
Lemma r_condok : forall x, In x (children n) -> condok x = true -> forall ss, writes (entries x) ss -> exists x', condok x' = true /\ up x' = up x /\ spelling (toks x') ss.
Proof.
  intros x S W ss H. unfold condok in W. bools. destruct (r_ch x Ex) with (ss := ss) as (x' & A & B & C); auto. exists x'. repeat split; auto.
  unfold condok. destruct (trs B) as (L & _ & _ & _ & _ & CL). rewrite A, L, CL. match goal with V : clausable x = true |- _ => rewrite V end. rewrite andb_true_r. apply Nat.leb_le. auto.
Qed.
End R.
Ltac kid IH x x' W U S := lazymatch goal with H : writes (entries x) ?s0 |- _ => destruct (r_ch _ IH x Ex) with (ss := s0) as (x' & W & U & S); [child|auto|exact H|]; clear H end.
Ltac kidc IH x c x' W U S := lazymatch goal with H : writes (entries x) ?s0 |- _ => destruct (r_ch _ IH x c) with (ss := s0) as (x' & W & U & S); [child|auto|exact H|]; clear H end.
Ltac kids IH l l' W U S := lazymatch goal with H : writes (listed (map entries l)) ?s0 |- _ => destruct (r_args _ IH l) with (ss := s0) as (l' & W & U & S); [intros ? ?; child|auto|exact H|]; clear H end.
Ltac ups IH k l l' W U S := lazymatch goal with H : writes (listed (map entries l)) ?s0 |- _ => destruct (r_uptos _ IH k l) with (ss := s0) as (l' & W & U & S); [intros ? ?; child|auto|exact H|]; clear H end.
Ltac itms IH l l' W U S := lazymatch goal with H : writes (listed (map entries l)) ?s0 |- _ => destruct (r_items _ IH l) with (ss := s0) as (l' & W & U & S); [intros ? ?; child|auto|exact H|]; clear H end.
Ltac lv := repeat match goal with
  | |- _ && _ = true => apply andb_true_iff; split
  | |- upto _ _ = true => unfold upto
  | |- condok _ = true => unfold condok
  | |- (_ <=? _) = true => apply Nat.leb_le
  | U : up ?x' = up _ |- context [lvl ?x'] => rewrite (tr lvl _ _ up_lvl U)
  | U : up ?x' = up _ |- context [is_index ?x'] => rewrite (tr is_index _ _ up_index U)
  | U : up ?x' = up _ |- context [is_call ?x'] => rewrite (tr is_call _ _ up_call U)
  | U : up ?x' = up _ |- context [is_over ?x'] => rewrite (tr is_over _ _ up_over U)
  | U : up ?x' = up _ |- context [is_number (lead ?x')] => rewrite (tr (fun z => is_number (lead z)) _ _ up_lead U)
  | U : up ?x' = up _ |- context [is_number ?x'] => rewrite (tr is_number _ _ up_number U)
  | U : up ?x' = up _ |- context [is_star ?x'] => rewrite (tr is_star _ _ up_star U)
  | U : up ?x' = up _ |- context [is_neg ?x'] => rewrite (tr is_neg _ _ up_neg U)
  | U : up ?x' = up _ |- context [is_str ?x'] => rewrite (tr is_str _ _ up_str U)
  | U : up ?x' = up _ |- context [is_column ?x'] => rewrite (tr is_column _ _ up_column U)
  | U : up ?x' = up _ |- context [is_str (last_op ?x')] => rewrite (tr (fun z => is_str (last_op z)) _ _ up_last U)
  | U : up ?x' = up _ |- context [paren1 ?x'] => rewrite (tr paren1 _ _ up_paren1 U)
  | U : up ?x' = up _ |- context [clausable ?x'] => rewrite (tr clausable _ _ up_clausable U)
  | U : map up ?x' = map up _ |- context [nonnil ?x'] => rewrite (nonnil_up _ _ U)
  end; auto; try (apply negb_true_iff; auto).
Ltac ex t := exists t; split; [|split].
Lemma rs_exp : forall n, (forall x, size x < size n -> RSP x) -> wf Ex n = true -> forall ss, writes (entries n) ss -> exists x', wf Ex x' = true /\ up x' = up n /\ spelling (toks x') ss.
Proof.
  intros n IH W ss H. destruct n; try discriminate W.
  - rewrite wf_fun in W. bools. cbn [entries] in H. unfold round in H. cut_. kids IH args l' W' U SS. ex (NFun y l').
    + rewrite wf_fun. rewrite (lower_eq_ident y name) by auto. lv. match goal with E : lower y = _ |- _ => rewrite E end. apply mem_false. auto.
    + cbn [up]. rewrite U. rewrite (lower_eq_upper y name) by auto. auto.
    + mk.
  - rewrite wf_cast in W. bools. cbn [entries] in H. unfold round in H. cut_. kid IH n x' W' U SS. match goal with V : lower ?z = lower ty |- _ => rename z into q end. ex (NCast x' q).
    + rewrite wf_cast. unfold upto. rewrite W'. rewrite (lower_eq_ident q ty) by auto. lv.
    + cbn [up]. rewrite U. rewrite (lower_eq_upper q ty) by auto. auto.
    + mk.
  - rewrite wf_count in W. bools. cbn [entries] in H. unfold round in H. cut_. kids IH args l' W' U SS. ex (NCount l' distinct).
    + rewrite wf_count. lv.
    + cbn [up]. rewrite U. auto.
    + destruct distinct; cut_; mk.
  - rewrite wf_arrayagg in W. bools. cbn [entries] in H. unfold round in H. cut_. kid IH n x' W' U SS.
    match goal with V : writes (match order with _ => _ end) ?z |- _ => rename V into OH; set (oz := z) in * end.
    assert (OT : exists o', oall itemsok o' = true /\ option_map (map up) o' = option_map (map up) order /\ spelling (match o' with Some l => Kw "order" :: Kw "by" :: commas (map toks l) | None => [] end) oz).
    { destruct order as [os|]; [|inversion OH; exists None; repeat split; auto; constructor]. cbn [oall] in *. clearbody oz. cut_. itms IH os os' W1 U1 S1. exists (Some os'). cbn [oall option_map]. rewrite U1. repeat split; auto. mk. }
    destruct OT as (o' & OW & OU & OS). subst oz. ex (NArrayAgg x' distinct ignore_nulls false o' limit).
    + rewrite wf_arrayagg. lv.
    + cbn [up]. rewrite U, OU. auto.
    + destruct limit as [z|]; [assert (Y : Z.abs z = z) by (cbn [oall] in *; match goal with X : (0 <? z)%Z = true |- _ => apply Z.ltb_lt in X end; lia); cbn [toks]; rewrite Y|];
      destruct distinct, ignore_nulls; cut_; mk.
  - rewrite wf_filtered in W. bools. cbn [entries] in H. unfold round in H. cut_. kid IH n1 x' W' U SS. kid IH n2 y' W'' U' S'. ex (NFiltered x' y').
    + rewrite wf_filtered. lv.
    + cbn [up]. rewrite U, U'. auto.
    + mk.
  - rewrite wf_analytics in W. bools. cbn [entries] in H. unfold round in H. cut_. kid IH n x' W' U SS.
    match goal with V : writes (match partition with _ => _ end) ?z |- _ => rename V into PH; set (pz := z) in * end.
    assert (PT : exists p', oall (fun l => nonnil l && forallb (upto 4) l) p' = true /\ option_map (map up) p' = option_map (map up) partition /\ spelling (match p' with Some l => Kw "partition" :: Kw "by" :: commas (map toks l) | None => [] end) pz).
    { destruct partition as [os|]; [|inversion PH; exists None; repeat split; auto; constructor]. cbn [oall] in *. clearbody pz. bools. cut_. ups IH 4 os os' W1 U1 S1. exists (Some os'). cbn [oall option_map]. rewrite U1. repeat split; auto; [lv|mk]. }
    destruct PT as (p' & PW & PU & PS). subst pz.
    match goal with V : writes (match order with _ => _ end) ?z |- _ => rename V into OH; set (oz := z) in * end.
    assert (OT : exists o', oall itemsok o' = true /\ option_map (map up) o' = option_map (map up) order /\ spelling (match o' with Some l => Kw "order" :: Kw "by" :: commas (map toks l) | None => [] end) oz).
    { destruct order as [os|]; [|inversion OH; exists None; repeat split; auto; constructor]. cbn [oall] in *. clearbody oz. cut_. itms IH os os' W1 U1 S1. exists (Some os'). cbn [oall option_map]. rewrite U1. repeat split; auto. mk. }
    destruct OT as (o' & OW & OU & OS). subst oz.
    match goal with V : writes (match frame with _ => _ end) ?z |- _ => rename V into FH; set (fz := z) in * end.
    assert (FT : exists f', oall frameok f' = true /\ option_map (fun f => (upper (fst f), upper (snd f))) f' = option_map (fun f => (upper (fst f), upper (snd f))) frame
       /\ spelling (match f' with Some (rr, f) => Id rr :: map Id (split 32 f) | None => [] end) fz).
    { destruct frame as [[rr f]|]; [|inversion FH; exists None; repeat split; auto; constructor]. cbn [oall option_map fst snd] in *. clearbody fz. cut_.
      match goal with V : writes (words f) _ |- _ => destruct (reads_words _ _ V) as (f' & L & SP) end.
      match goal with V : lower ?y = lower rr |- _ => exists (Some (y, f')); rename V into LR end. cbn [oall option_map fst snd]. rewrite (lower_eq_upper _ _ LR), (lower_eq_upper _ _ L). repeat split; auto.
      - unfold frameok in *. cbn [fst snd] in *. rewrite LR. bools. lv; [apply mem_In; auto|].
        match goal with V : forallb _ (split 32 f) = true |- _ => revert V end. assert (X : map lower (split 32 f') = map lower (split 32 f)) by (rewrite <- !split_lower, L; auto). revert X. clear. generalize (split 32 f) (split 32 f'). intros l l'. revert l. induction l' as [|w' l' I]; intros [|w l] X V; try discriminate X; auto.
        injection X as X1 X2. cbn [forallb] in *. bools. rewrite (lower_eq_word w' w) by auto. rewrite X1. match goal with A : word w = true |- _ => rewrite A end. cbn [andb]. rewrite (I l) by auto. rewrite andb_true_r. apply negb_true_iff, mem_false. auto.
      - rewrite SP. constructor; [reflexivity|]. clear. match goal with |- Forall2 spells (map Id ?l) _ => induction l; constructor; auto end. reflexivity. }
    destruct FT as (f' & FW & FU & FS). subst fz. ex (NAnalytics x' p' o' f').
    + rewrite wf_analytics. lv.
    + cbn [up]. rewrite U, PU, OU, FU. auto.
    + mk.
  - cbn [entries] in H. cut_. ex (NColumn v); auto. mk.
  - rewrite wf_chained in W. bools. cbn [entries] in H. cut_. kid IH n1 x' W' U SS. kid IH n2 y' W'' U' S'. ex (NChained x' y').
    + rewrite wf_chained. lv.
    + cbn [up]. rewrite U, U'. auto.
    + mk.
  - rewrite wf_datepart in W. bools. cbn [entries] in H. cut_. kid IH n x' W' U SS. ex (NDatePart y x').
    + rewrite wf_datepart. match goal with V : lower y = _ |- _ => rewrite V end. lv. apply mem_In. auto.
    + cbn [up]. rewrite U. rewrite (lower_eq_upper y part) by auto. auto.
    + mk.
  - ex (NString v quotes prefix); auto. cbn [entries toks] in *. destruct v; cut_; mk.
  - ex (NInt z); auto. cbn [entries toks] in *. destruct (_ <? _)%Z; cut_; mk.
  - ex (NFloat text); auto. cbn [entries toks] in *. rename text into t.
    assert (X : (exists u, t = 45%N :: u) \/ (match t with 45%N :: t => [Id "-"; Id t] | _ => [Id t] end = [Id t] /\ match t with 45%N :: t => [Name "-"; Name t] | _ => [Name t] end = [Name t])).
    { destruct t as [|c t]; auto. destruct c as [|c]; auto. do 6 (destruct c as [c|c|]; auto). eauto. }
    destruct X as [(u & ->)|[-> X]]; [|rewrite X in H]; cut_; mk.
  - ex NNull; auto. cbn [entries] in H. cut_. mk.
  - ex (NBool b); auto. cbn [entries] in H. cut_. mk.
  - rewrite wf_paren in W. bools. cbn [entries] in H. unfold round in H. cut_. kids IH args l' W' U SS. ex (NParen l').
    + rewrite wf_paren. auto.
    + cbn [up]. rewrite U. auto.
    + mk.
  - rewrite wf_array in W. bools. cbn [entries] in H. unfold square in H. cut_. kids IH args l' W' U SS. ex (NArray l').
    + rewrite wf_array. auto.
    + cbn [up]. rewrite U. auto.
    + mk.
  - rewrite wf_alias in W. bools. cbn [entries] in H. cut_. kid IH n x' W' U SS. match goal with V : aliasok _ _ _ = true |- _ => rename V into AL end.
    match goal with V : writes (match alias with _ => _ end) ?z |- _ => rename V into AH; set (az := z) in * end.
    assert (AT : exists a', aliasok x' a' with_as = true /\ match a' with inl t => inl t | inr x => inr (up x) end = match alias with inl t => inl t | inr x => inr (up x) end
      /\ spelling (match a' with inl t => [Id t] | inr x => toks x end) az).
    { unfold aliasok in *. clearbody az. destruct alias as [t|xa].
      - exists (inl t). split; [destruct with_as; bools; lv|split; auto]. cut_. mk.
      - assert (WX : wf Ex xa = true) by (destruct with_as; bools; auto). kid IH xa z WZ UZ SZ. exists (inr z). split; [|rewrite UZ; auto]. destruct with_as; bools; lv. }
    destruct AT as (a' & AW & AU & AS). subst az. ex (NAlias x' a' with_as).
    + rewrite wf_alias. lv.
    + cbn [up]. rewrite U, AU. auto.
    + destruct with_as; cut_; mk.
  - rewrite wf_index in W. bools. cbn [entries] in H. unfold square in H. cut_. kid IH n x' W' U SS. kids IH indices l' W'' U' S'. ex (NIndex x' l').
    + rewrite wf_index. lv.
    + cbn [up]. rewrite U, U'. auto.
    + mk.
  - rewrite wf_arith in W. bools. cbn [entries] in H. cut_. kid IH n1 x' W' U SS. kid IH n2 y' W'' U' S'. ex (NArith op x' y').
    + rewrite wf_arith. lv. apply mem_In. auto.
    + cbn [up]. rewrite U, U'. auto.
    + mk.
  - rewrite wf_bitwise in W. bools. cbn [entries] in H. cut_. kid IH n1 x' W' U SS. kid IH n2 y' W'' U' S'. ex (NBitwise x' op y').
    + rewrite wf_bitwise. lv. apply mem_In. auto.
    + cbn [up]. rewrite U, U'. auto.
    + mk.
  - rewrite wf_cond in W. bools. cbn [entries] in H. cut_. kid IH n1 x' W' U SS. destruct (str_eqb (lower pred) "between") eqn:B.
    + destruct n2; try discriminate. bools. subst.
      assert (M : mem pred ["is not"; "not in"] = false) by (apply mem_false; intros [<-|[<-|[]]]; discriminate B). rewrite M in *. cbn [entries] in *. cut_.
      match goal with V : writes (entries n2_1) ?s |- _ => destruct (IH n2_1) with (c := Ex) (ss := s) as (a & A1 & A2 & A3); [cbn [size]; lia|auto|auto|] end.
      match goal with V : writes (entries n2_2) ?s |- _ => destruct (IH n2_2) with (c := Ex) (ss := s) as (b & B1 & B2 & B3); [cbn [size]; lia|auto|auto|] end.
      match goal with V : lower ?y = lower pred |- _ => rename V into LP; ex (NCond x' y (NBoolC "and" a b)); rewrite B in LP end.
      * rewrite wf_cond, LP. change (str_eqb "between" "between") with true. cbv iota. lv; reflexivity.
      * rewrite !up_cond, LP, B. change (str_eqb "between" "between") with true. cbv iota. cbn [up btw]. rewrite U, A2, B2. rewrite (lower_eq_upper _ pred) by congruence. auto.
      * cbn [toks]. rewrite LP. change (str_eqb "between" "between") with true. cbv iota. mk.
    + bools. kid IH n2 y' W'' U' S'. destruct (mem pred ["is not"; "not in"]) eqn:M.
      * ex (NCond x' pred y').
        -- rewrite wf_cond, B. lv.
        -- rewrite !up_cond, B. rewrite U, U'. auto.
        -- cbn [toks]. rewrite B, M. apply Forall2_app; auto. apply Forall2_app; auto. apply reads_kws. auto.
      * cut_. match goal with V : lower ?y = lower pred |- _ => rename V into LP; rename y into q end.
        assert (Q : mem q ["is not"; "not in"] = false /\ (mem q COMPARE || mem (lower q) ["is"; "like"; "in"; "contains"] = true)).
        { match goal with V : _ || _ = true |- _ => revert V end. rewrite LP. clear - LP M. intros V. apply orb_true_iff in V as [V|V].
          - assert (q = pred) by (apply lower_sign; auto; apply mem_In in V; cbn in V; repeat (destruct V as [<-|V]; [first [discriminate M | reflexivity]|]); contradiction). subst. rewrite V, M. auto.
          - rewrite V, orb_true_r. split; auto. apply mem_false. intros X. rewrite <- LP in V. apply mem_In in V. destruct X as [<-|[<-|[]]]; cbn in V; repeat (destruct V as [V|V]; [discriminate V|]); contradiction. }
        destruct Q as [Q1 Q2]. ex (NCond x' q y').
        -- rewrite wf_cond, LP, B. rewrite LP in Q2. lv.
        -- rewrite !up_cond, LP, B, Q1, M. rewrite U, U'. rewrite (lower_eq_upper q pred) by auto. auto.
        -- cbn [toks]. rewrite LP, B, Q1. mk.
  - rewrite wf_boolc in W. bools. cbn [entries] in H. cut_. kid IH n1 x' W' U SS. kid IH n2 y' W'' U' S'. match goal with V : lower ?y = lower ty |- _ => rename V into LP; rename y into q end. ex (NBoolC q x' y').
    + rewrite wf_boolc, LP. lv. apply mem_In. auto.
    + cbn [up]. rewrite U, U'. rewrite (lower_eq_upper q ty) by auto. auto.
    + mk.
  - rewrite wf_neg in W. bools. cbn [entries] in H. cut_. kid IH n x' W' U SS. ex (NNeg x').
    + rewrite wf_neg. unfold upto. rewrite W'. lv.
    + cbn [up]. rewrite U. auto.
    + mk.
  - rewrite wf_except in W. bools. cbn [entries] in H. unfold round in H. cut_. kid IH n x' W' U SS. kids IH args l' W'' U' S'. ex (NExcept x' l').
    + rewrite wf_except. lv.
    + cbn [up]. rewrite U, U'. auto.
    + mk.
  - rewrite wf_replace in W. bools. cbn [entries] in H. unfold round in H. cut_. kid IH n x' W' U SS. kids IH args l' W'' U' S'. ex (NReplace x' l').
    + rewrite wf_replace. lv. match goal with V : forallb as_alias args = true |- _ => revert V end. revert U'. clear. revert l'. induction args as [|a l I]; intros [|a' l'] U V; try discriminate U; auto. injection U as U1 U2. cbn [forallb] in *. bools. rewrite (tr as_alias a a' up_as U1), H. apply I; auto.
    + cbn [up]. rewrite U, U'. auto.
    + mk.
  - rewrite wf_case in W. bools. cbn [entries] in H. cut_.
    match goal with V : writes (match e with _ => _ end) ?z |- _ => rename V into EH; set (ez := z) in * end.
    match goal with V : writes (match els with _ => _ end) ?z |- _ => rename V into LH; set (lz := z) in * end.
    match goal with V : writes (flat_map _ _) ?z |- _ => rename V into WH; set (wz := z) in * end.
    assert (ET : exists e', oall (fun x => upto 4 x && negb (starts_with ["case"] (toks x))) e' = true /\ option_map up e' = option_map up e /\ spelling (match e' with Some x => toks x | None => [] end) ez).
    { clearbody ez. destruct e as [xa|]; [|inversion EH; exists None; repeat split; auto; constructor]. cbn [oall] in *. bools. kid IH xa z WZ UZ SZ. exists (Some z). cbn [oall option_map]. rewrite UZ. repeat split; auto. unfold upto. rewrite WZ, (tr_starts _ xa z UZ). lv. }
    assert (LT : exists e', oall (upto 4) e' = true /\ option_map up e' = option_map up els /\ spelling (match e' with Some x => Kw "else" :: toks x | None => [] end) lz).
    { clearbody lz. destruct els as [xa|]; [|inversion LH; exists None; repeat split; auto; constructor]. cbn [oall] in *. bools. clear EH WH. cut_. kid IH xa z WZ UZ SZ. exists (Some z). cbn [oall option_map]. rewrite UZ. repeat split; auto; [unfold upto; rewrite WZ; lv|mk]. }
    assert (WT : exists w', forallb wtok w' = true /\ map (fun wt => (up (fst wt), up (snd wt))) w' = map (fun wt => (up (fst wt), up (snd wt))) whens /\ spelling (flat_map (fun wt => Kw "when" :: toks (fst wt) ++ Kw "then" :: toks (snd wt)) w') wz).
    { assert (Q : forall q, In q whens -> size (fst q) < size (NCase e whens els) /\ size (snd q) < size (NCase e whens els)).
      { intros q I. split; apply children_size; cbn [children]; apply in_or_app; right; apply in_or_app; [left; apply in_map; auto|right; apply in_or_app; left; apply in_map; auto]. }
      match goal with V : forallb wtok whens = true |- _ => revert V end. clearbody wz. set (k := size (NCase e whens els)) in *. clearbody k. clear - IH Q WH. revert wz WH. induction whens as [|q l I]; intros wz WH V; [inversion WH; exists []; repeat split; auto; constructor|].
      cbn [forallb] in V. apply andb_true_iff in V as [V1 V2]. cbn [flat_map] in WH. destruct (Q q (or_introl eq_refl)). unfold wtok in V1. bools. cut_.
      match goal with V : writes (flat_map _ _) ?z |- _ => destruct (I (fun q X => Q q (or_intror X)) z) as (w' & A & B & C); auto end.
      match goal with V : writes (entries (fst q)) ?s |- _ => destruct (IH (fst q)) with (c := Ex) (ss := s) as (a & A1 & A2 & A3); auto end.
      match goal with V : writes (entries (snd q)) ?s |- _ => destruct (IH (snd q)) with (c := Ex) (ss := s) as (b & B1 & B2 & B3); auto end.
      exists ((a, b) :: w'). split; [|split].
      - cbn [forallb]. rewrite A, andb_true_r. unfold wtok. cbn [fst snd]. lv.
      - cbn [map fst snd]. rewrite A2, B2, B. auto.
      - cbn [flat_map fst snd]. mk. }
    destruct ET as (e' & EW & EU & ES), LT as (l' & LW & LU & LS), WT as (w' & WW & WU & WS). subst ez lz wz. ex (NCase e' w' l').
    + rewrite wf_case. lv. rewrite <- (nonnil_map (fun wt => (up (fst wt), up (snd wt))) w'), WU, nonnil_map. auto.
    + cbn [up]. rewrite EU, LU, WU. auto.
    + mk.
Qed.

(** ** FROM items *)
Definition tabshape (v : node) : bool :=
  match v with
  | NString _ _ _ => true
  | NChained (NString _ _ _) _ => true
  | NAlias e _ _ => (lvl e <=? 4) && starts_ident (toks v)
  | _ => (lvl v <=? 4) && starts_ident (toks v)
  end.
Lemma tabshape_up : forall v, tabshape (up v) = tabshape v.
Proof.
  intros v. assert (X := up_lvl v). assert (Y := sim_ident _ _ (up_toks v)).
  assert (Z : forall v, match v with NString _ _ _ | NChained _ _ | NAlias _ _ _ => true | _ => false end = false -> tabshape v = (lvl v <=? 4) && starts_ident (toks v)).
  { intros u. destruct u; auto; discriminate. }
  destruct (match v with NString _ _ _ | NChained _ _ | NAlias _ _ _ => true | _ => false end) eqn:E.
  - destruct v; try discriminate E; auto.
    + assert (Q : forall l r, is_str l = false -> tabshape (NChained l r) = (lvl (NChained l r) <=? 4) && starts_ident (toks (NChained l r))).
      { intros l r. destruct l; auto; discriminate. }
      destruct (is_str v1) eqn:ST.
      * destruct v1; try discriminate ST. auto.
      * rewrite Q by auto. cbn [up] in *. rewrite Q by (rewrite up_str; auto). rewrite X, Y. auto.
    + cbn [up tabshape] in *. rewrite up_lvl, Y. auto.
  - rewrite !Z; [rewrite X, Y; auto| |]; auto. revert E. clear. destruct v; try discriminate; auto; intros _. rewrite up_cond. destruct (str_eqb _ _); auto.
Qed.
Lemma r_opt : forall (ok : node -> bool) o k, oall ok o = true ->
  (forall x, o = Some x -> ok x = true -> forall ss, writes (entries x) ss -> exists x', ok x' = true /\ up x' = up x /\ spelling (toks x') ss) ->
  forall ss, writes (match o with Some e => Word k :: entries e | None => [] end) ss ->
  exists o', oall ok o' = true /\ option_map up o' = option_map up o /\ spelling (match o' with Some e => Kw k :: toks e | None => [] end) ss.
Proof.
  intros ok [x|] k W H ss S; cbn [oall] in W; cut_.
  - match goal with V : writes (entries x) ?s |- _ => destruct (H x eq_refl W s V) as (x' & A & B & C) end. exists (Some x'). cbn [oall option_map]. rewrite A, B. repeat split; auto. mk.
  - exists None. repeat split; auto. constructor.
Qed.
Lemma rs_from : forall n, (forall x, size x < size n -> RSP x) -> wf Fr n = true -> forall ss, writes (entries n) ss -> exists x', wf Fr x' = true /\ up x' = up n /\ spelling (toks x') ss.
Proof.
  intros n IH W ss H. destruct n; try discriminate W.
  - destruct args as [|f [|? ?]]; try discriminate W. change ((if is_sel f || is_wth f then wf St f else wf Fr f) = true) in W.
    cbn [entries map listed] in H. unfold round in H. cut_.
    assert (X : exists x', (if is_sel x' || is_wth x' then wf St x' else wf Fr x') = true /\ up x' = up f /\ spelling (toks x') x).
    { destruct (is_sel f || is_wth f) eqn:E; [kidc IH f St x' W' U SS|kidc IH f Fr x' W' U SS]; exists x'; rewrite (tr _ f x' up_sel U), (tr _ f x' up_wth U), E; auto. }
    destruct X as (x' & W' & U & SS). ex (NParen [x']); auto.
    + cbn [up map]. rewrite U. auto.
    + cbn [toks map commas]. mk.
  - rewrite wf_falias in W. bools. cbn [entries] in H. cut_. kidc IH n Fr x' W' U SS. ex (NAlias x' alias with_as).
    + rewrite wf_falias. lv. rewrite (tr _ n x' up_closed U). auto.
    + cbn [up]. rewrite U. auto.
    + match goal with V : writes (match alias with _ => _ end) _ |- _ => apply r_als in V; auto end. destruct with_as; cut_; mk.
  - rewrite wf_table in W. cbn [entries] in H. destruct brackets.
    + unfold square in H. bools. cut_. kid IH n x' W' U SS. ex (NTable x' true).
      * rewrite wf_table. lv.
      * cbn [up]. rewrite U. auto.
      * mk.
    + change (wf Ex n && tabshape n = true) in W. bools. kid IH n x' W' U SS. ex (NTable x' false).
      * rewrite wf_table. change (wf Ex x' && tabshape x' = true). rewrite W', (tr _ n x' tabshape_up U). auto.
      * cbn [up]. rewrite U. auto.
      * mk.
  - rewrite wf_unnest in W. cbn [entries] in H. apply andb_true_iff in W as [W W2]. apply andb_true_iff in W as [W W1].
    apply Forall2_app_inv_l in H as (s1 & s2 & H1 & H2 & ->).
    assert (X : exists x', unnestok x' = true /\ up x' = up n /\ spelling (match x' with NFun _ args => Kw "unnest" :: parens (commas (map toks args))
        | NAlias (NFun _ args) a w => Kw "unnest" :: parens (commas (map toks args)) ++ (if w then [Kw "as"] else []) ++ match a with inl t => [Id t] | inr x => toks x end
        | _ => toks x' end) s1).
    { destruct n; try discriminate W; cbn [unnestok] in W.
      - bools. subst. cbn [entries] in H1. unfold round in H1. cut_.
        match goal with V : writes (listed _) ?s0 |- _ => destruct (r_argsz _ IH args) with (ss := s0) as (l' & W' & U & SS); [intros z Z; cbn [size]; apply sizes_In in Z; lia|auto|exact V|]; clear V end.
        exists (NFun "unnest" l'). cbn [unnestok up]. rewrite U, W'. repeat split; auto. mk.
      - destruct n; try discriminate W. bools. subst. cbn [entries] in H1. unfold round in H1. cut_.
        match goal with V : writes (listed _) ?s0 |- _ => destruct (r_argsz _ IH args) with (ss := s0) as (l' & W' & U & SS); [intros z Z; cbn [size]; apply sizes_In in Z; lia|auto|exact V|]; clear V end.
        exists (NAlias (NFun "unnest" l') alias0 with_as). cbn [unnestok up]. rewrite U, W'. repeat split; auto.
        match goal with V : writes (match alias0 with _ => _ end) _ |- _ => apply r_als in V; auto end.
        match goal with |- spelling _ ?z => change (spelling ((Kw "unnest" :: parens (commas (map toks l'))) ++ ((if with_as then [Kw "as"] else []) ++ match alias0 with inl t => [Id t] | inr x => toks x end)) z) end.
        destruct with_as; cut_; mk. }
    destruct X as (x' & W' & U & SS). ex (NUnnest x' with_offset with_offset_as alias).
    + rewrite wf_unnest, W', W1, W2. auto.
    + rewrite !up_unnest, U. auto.
    + cbn [toks]. apply Forall2_app; auto. destruct with_offset; cut_; mk. destruct alias; cut_; mk. destruct with_offset_as; cut_; mk.
  - rewrite wf_join in W. bools. cbn [entries] in H. cut_. kidc IH n1 Fr x' W' U SS. kidc IH n2 Fr y' W'' U' SS'.
    match goal with V : joinok _ _ _ _ = true |- _ => rename V into J end. unfold joinok in J.
    match goal with V : writes (match on_ with _ => _ end) ?s |- _ => destruct (r_opt (fun c => mem ty ["CROSS JOIN"; ","] || condok c) on_ "on") with (ss := s) as (o' & OW & OU & OS) end; auto.
    { destruct on_; auto. cbn [oall]. destruct (mem ty _); auto. bools. destruct using_; try discriminate. auto. }
    { intros z -> O s Z. destruct (mem ty _); [destruct using_; discriminate J|]. cbn [orb] in *. apply (r_condok _ IH); auto. child. }
    match goal with V : writes (match using_ with _ => _ end) ?s |- _ => destruct (r_opt (fun c => mem ty ["CROSS JOIN"; ","] || condok c) using_ "using") with (ss := s) as (u' & UW & UU & US) end; auto.
    { destruct using_; auto. cbn [oall]. destruct (mem ty _); auto. bools. destruct on_; try discriminate. auto. }
    { intros z -> O s Z. destruct (mem ty _); [destruct on_; discriminate J|]. cbn [orb] in *. apply (r_condok _ IH); auto. child. }
    ex (NJoin ty x' y' o' u').
    + rewrite wf_join. rewrite W', W'', (tr _ n1 x' up_flvl U). cbn [andb]. lv. unfold joinok. rewrite (tr _ n2 y' up_flvl U').
      destruct (mem ty _); [destruct on_, using_; try discriminate J; destruct o', u'; try discriminate; auto|]. cbn [orb] in *. bools.
      lv. destruct on_, using_; try discriminate; destruct o', u'; try discriminate; auto.
    + cbn [up]. rewrite U, U', OU, UU. auto.
    + cbn [toks]. apply Forall2_app; auto. apply Forall2_app; [|mk]. destruct (str_eqb ty ","); [cut_; mk|apply reads_kws; auto].
  - rewrite wf_combined in W. bools. cbn [entries] in H. cut_. kidc IH n1 Fr x' W' U SS.
    assert (X : exists y', (if is_sel y' then bare_select y' && wf St y' else wf Fr y' && (flvl y' <=? 3)) = true /\ up y' = up n2 /\ spelling (toks y') x2).
    { destruct (is_sel n2) eqn:E; bools; [kidc IH n2 St y' W'' U' SS'|kidc IH n2 Fr y' W'' U' SS']; exists y'; rewrite (tr _ n2 y' up_sel U'), E, W'', ?(tr _ n2 y' up_bare U'), ?(tr _ n2 y' up_flvl U'); repeat split; auto; lv. }
    destruct X as (y' & W'' & U' & SS'). ex (NCombined op x' y').
    + rewrite wf_combined, (tr _ n1 x' up_flvl U), (tr _ n2 y' up_noset U'). rewrite W', W''. lv.
    + cbn [up]. rewrite U, U'. auto.
    + cbn [toks]. apply Forall2_app; auto. apply Forall2_app; auto. apply reads_kws; auto.
Qed.

(** ** Statements *)
Lemma rs_stmt : forall n, (forall x, size x < size n -> RSP x) -> wf St n = true -> forall ss, writes (entries n) ss -> exists x', wf St x' = true /\ up x' = up n /\ spelling (toks x') ss.
Proof.
  intros n IH W ss H. destruct n; try discriminate W.
  - rewrite wf_select in W. bools. subst. cbn [entries] in H.
    apply Forall2_cons_iff_l in H as (y & s0 & Y & H & ->).
    apply Forall2_app_inv_l in H as (s1 & r1 & D1 & H & ->). apply Forall2_app_inv_l in H as (s2 & r2 & D2 & H & ->). apply Forall2_app_inv_l in H as (s3 & r3 & D3 & H & ->).
    apply Forall2_app_inv_l in H as (s4 & r4 & D4 & H & ->). apply Forall2_app_inv_l in H as (s5 & r5 & D5 & H & ->). apply Forall2_app_inv_l in H as (s6 & r6 & D6 & H & ->).
    apply Forall2_app_inv_l in H as (s7 & r7 & D7 & H & ->). apply Forall2_app_inv_l in H as (s8 & r8 & D8 & H & ->). apply Forall2_app_inv_l in H as (s9 & r9 & D9 & H & ->).
    ups IH 7 exprs ex' EW EU ES.
    destruct (r_opt (wf Fr) from_ "from") with (ss := s3) as (f' & FW & FU & FS); auto. { intros x ->. apply (r_ch _ IH). child. }
    destruct (r_opt condok where_ "where") with (ss := s4) as (w' & WW & WU & WS); auto. { intros x ->. apply (r_condok _ IH). child. }
    destruct (r_opt condok having "having") with (ss := s6) as (h' & HW & HU & HS); auto. { intros x ->. apply (r_condok _ IH). child. }
    destruct (r_opt (upto 3) offset "offset") with (ss := s9) as (o' & OW & OU & OS); auto. { intros x ->. apply (r_upto _ IH). apply children_size. child. }
    assert (DT : exists d', donok sel_distinct d' = true /\ option_map (map up) d' = option_map (map up) distinct_on /\
      spelling (if sel_all then [Kw "all"] else if sel_distinct then Kw "distinct" :: match d' with Some l => Kw "on" :: parens (commas (map toks l)) | None => [] end else []) s1).
    { destruct sel_all; [exists distinct_on; repeat split; auto; cut_; mk|]. destruct sel_distinct; [|exists distinct_on; repeat split; auto; cut_; mk].
      destruct distinct_on as [l|]; [|exists None; repeat split; auto; cut_; mk]. cbn [donok] in *. bools. unfold round in D1. cut_. ups IH 3 l l1 W1 U1 S1. exists (Some l1). cbn [donok option_map]. rewrite U1. repeat split; auto; [lv|mk]. }
    assert (GT : exists g', groupok g' = true /\ option_map (fun g => (map up (fst (fst g)), snd (fst g), snd g)) g' = option_map (fun g => (map up (fst (fst g)), snd (fst g), snd g)) group /\
      spelling (match g' with Some (args, rollup, each) => Kw "group" :: (if each then [Kw "each"] else []) ++ Kw "by" :: (if rollup then [Kw "rollup"] else []) ++ commas (map toks args) | None => [] end) s5).
    { destruct group as [[[l r] e]|]; [|exists None; repeat split; auto; cut_; mk]. cbn [groupok] in *. bools. cut_. ups IH 3 l l1 W1 U1 S1. exists (Some (l1, r, e)). cbn [groupok option_map fst snd]. rewrite U1. repeat split; auto; [lv|destruct e, r; cut_; mk]. }
    assert (OT : exists d', oall itemsok d' = true /\ option_map (map up) d' = option_map (map up) order /\ spelling (match d' with Some l => Kw "order" :: Kw "by" :: commas (map toks l) | None => [] end) s7).
    { destruct order as [l|]; [|exists None; repeat split; auto; cut_; mk]. cbn [oall] in *. cut_. itms IH l l1 W1 U1 S1. exists (Some l1). cbn [oall option_map]. rewrite U1. repeat split; auto. mk. }
    assert (LT : exists l', limitok l' = true /\ option_map (fun l => (fst l, option_map up (snd l))) l' = option_map (fun l => (fst l, option_map up (snd l))) limit /\
      spelling (match l' with Some (true, _) => [Kw "limit"; Kw "all"] | Some (false, Some e) => Kw "limit" :: toks e | Some (false, None) => [Kw "limit"] | None => [] end) s8).
    { destruct limit as [[[|] [e|]]|]; cbn [limitok] in *; try discriminate; [exists (Some (true, None)); repeat split; auto; cut_; mk| |exists None; repeat split; auto; cut_; mk].
      bools. cut_. kid IH e z WZ UZ SZ. exists (Some (false, Some z)). cbn [limitok option_map fst snd]. rewrite UZ. repeat split; auto; [lv|mk]. }
    destruct DT as (d' & DW & DU & DS), GT as (g' & GW & GU & GS), OT as (od' & ODW & ODU & ODS), LT as (l' & LW & LU & LS).
    ex (NSelect ex' sel_all sel_distinct d' f' w' g' h' od' l' o' false).
    + rewrite wf_select. lv.
    + cbn [up]. rewrite EU, DU, FU, WU, GU, HU, ODU, LU, OU. auto.
    + inversion H. cbn [toks]. constructor; auto. repeat (apply Forall2_app; auto).
  - rewrite wf_with in W. bools. cbn [entries] in H. apply Forall2_cons_iff_l in H as (y & s0 & Y & H & ->).
    apply Forall2_app_inv_l in H as (s1 & r1 & D1 & H & ->). kidc IH n St x' W' U SS.
    assert (QT : exists q', forallb wqok q' = true /\ map (fun q : str * node => (fst q, up (snd q))) q' = map (fun q : str * node => (fst q, up (snd q))) queries /\
      spelling (commas (map (fun q : str * node => Id (fst q) :: Kw "as" :: parens (toks (snd q))) q')) s1).
    { assert (Q : forall q, In q queries -> size (snd q) < size (NWith queries n)).
      { intros q I. apply children_size. cbn [children]. apply in_or_app. left. apply in_map. auto. }
      match goal with V : forallb wqok queries = true |- _ => revert V end. remember (size (NWith queries n)) as k eqn:EK. clear - IH Q D1. revert s1 D1. induction queries as [|q l I]; intros s1 D1 V; [inversion D1; exists []; repeat split; auto; constructor|].
      cbn [forallb] in V. apply andb_true_iff in V as [V1 V2]. assert (Q0 := Q q (or_introl eq_refl)). specialize (I (fun q X => Q q (or_intror X))).
      assert (P : forall s, writes (Name (fst q) :: Word "as" :: round (entries (snd q))) s -> exists b, wqok (fst q, b) = true /\ up b = up (snd q) /\ spelling (Id (fst q) :: Kw "as" :: parens (toks b)) s).
      { intros s Z. unfold wqok in *. bools. unfold round in Z. cut_. match goal with V : writes (entries (snd q)) ?s |- _ => destruct (IH (snd q)) with (c := St) (ss := s) as (b & B1 & B2 & B3); auto end.
        exists b. cbn [fst snd]. rewrite B1, (tr _ _ _ up_sel B2). repeat split; auto; [lv|mk]. }
      destruct l as [|q2 l].
      - destruct (P s1 D1) as (b & B1 & B2 & B3). exists [(fst q, b)]. cbn [forallb map fst snd]. rewrite B1, B2. auto.
      - change (writes ((Name (fst q) :: Word "as" :: round (entries (snd q))) ++ Name "," :: listed (map (fun q : str * node => Name (fst q) :: Word "as" :: round (entries (snd q))) (q2 :: l))) s1) in D1.
        apply Forall2_app_inv_l in D1 as (t1 & t2 & T1 & T2 & ->). inversion T2 as [|? c ? t3 T3 T4]; subst. clear T2.
        destruct (P t1 T1) as (b & B1 & B2 & B3). destruct (I t3 T4 V2) as (q' & A & B & C). exists ((fst q, b) :: q').
        cbn [forallb]. rewrite B1, A. split; auto. split; [cbn [map fst snd]; f_equal; [rewrite B2; auto|exact B]|].
        destruct q' as [|q2' q']; [discriminate B|]. change (spelling ((Id (fst q) :: Kw "as" :: parens (toks b)) ++ Id "," :: commas (map (fun q : str * node => Id (fst q) :: Kw "as" :: parens (toks (snd q))) (q2' :: q'))) (t1 ++ c :: t3)).
        apply Forall2_app; auto. }
    destruct QT as (q' & QW & QU & QS). ex (NWith q' x').
    + rewrite wf_with. rewrite W', (tr _ _ _ up_sel U). lv. rewrite <- (nonnil_map (fun q : str * node => (fst q, up (snd q))) q'), QU, nonnil_map. auto.
    + cbn [up]. rewrite U. f_equal. exact QU.
    + cbn [toks]. constructor; auto. apply Forall2_app; auto.
Qed.
Lemma respell_all : forall n, RSP n.
Proof.
  intros n. remember (size n) as k eqn:E. revert n E. induction k as [k IH] using (well_founded_induction lt_wf). intros n -> c.
  assert (H : forall m, size m < size n -> RSP m) by (intros m M; eapply IH; eauto).
  destruct c; auto using rs_exp, rs_from, rs_stmt.
Qed.

(** ** The closing semicolon *)
Lemma toks_semi : forall n, stmt_shape n = true -> toks (with_semi true n) = toks (with_semi false n) ++ [Id ";"].
Proof.
  intros n W. destruct n; try discriminate W.
  - cbn [with_semi toks app]. f_equal. rewrite <- !app_assoc. reflexivity.
  - destruct n; try discriminate W. cbn [with_semi toks app]. f_equal. rewrite <- !app_assoc. f_equal. cbn [app]. rewrite <- !app_assoc. reflexivity.
Qed.
Lemma entries_semi : forall n, stmt_shape n = true -> entries (with_semi true n) = entries (with_semi false n) ++ [Name ";"].
Proof.
  intros n W. destruct n; try discriminate W.
  - cbn [with_semi entries app]. f_equal. rewrite <- !app_assoc. reflexivity.
  - destruct n; try discriminate W. cbn [with_semi entries app]. f_equal. rewrite <- !app_assoc. f_equal. cbn [app]. rewrite <- !app_assoc. reflexivity.
Qed.
Theorem respell : forall n, statement n = true -> forall ss, writes (entries n) ss ->
  exists n', statement n' = true /\ up n' = up n /\ spelling (toks n') ss.
Proof.
  intros n W ss H. assert (SH := statement_shape n W). destruct (semi_cases n SH) as [E|E].
  - rewrite E in H. destruct (respell_all _ St W ss H) as (n' & A & B & C). exists n'. split; [|split; [rewrite E; auto|auto]].
    unfold statement. replace (with_semi false n') with n'; auto.
    clear - A. destruct n'; try discriminate A; [rewrite wf_select in A; bools; subst; auto|]. rewrite wf_with in A. bools. destruct n'; try discriminate. rewrite wf_select in *. bools. subst. auto.
  - rewrite E, entries_semi in H by auto. apply Forall2_app_inv_l in H as (s1 & s2 & H1 & H2 & ->).
    destruct (respell_all _ St W s1 H1) as (n' & A & B & C).
    assert (F : with_semi false n' = n').
    { clear - A. destruct n'; try discriminate A; [rewrite wf_select in A; bools; subst; auto|]. rewrite wf_with in A. bools. destruct n'; try discriminate. rewrite wf_select in *. bools. subst. auto. }
    assert (W2 : statement n' = true) by (unfold statement; rewrite F; auto). assert (SH' := statement_shape n' W2).
    exists (with_semi true n'). split; [unfold statement; rewrite semi_semi; exact W2|]. split.
    + rewrite <- up_semi, B, up_semi, semi_semi, <- E. auto.
    + rewrite toks_semi by auto. rewrite F. cut_. apply Forall2_app; auto. constructor; [reflexivity|constructor].
Qed.
