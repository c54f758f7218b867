(** The tree that the parser reads from the printed text: words that the printer puts in upper
    case are stored in upper case. *)
From Verif Require Import PyStr PyFloat Lib AstLib Ast Grammar Scan GramTok Render RenderEq.
Local Open Scope str_scope.
Local Open Scope list_scope.

Fixpoint up (n : node) : node :=
  match n with
  | NSelect exprs a d don f w g h o l off semi =>
    NSelect (map up exprs) a d (option_map (map up) don) (option_map up f) (option_map up w)
      (option_map (fun g => (map up (fst (fst g)), snd (fst g), snd g)) g) (option_map up h) (option_map (map up) o)
      (option_map (fun l => (fst l, option_map up (snd l))) l) (option_map up off) semi
  | NWith qs s => NWith (map (fun q => (fst q, up (snd q))) qs) (up s)
  | NOrderItem e a d => NOrderItem (up e) a d
  | NFun name args => NFun (upper name) (map up args)
  | NCast c ty => NCast (up c) (upper ty)
  | NCount args d => NCount (map up args) d
  | NArrayAgg c d i r o l => NArrayAgg (up c) d i r (option_map (map up) o) l
  | NFiltered f c => NFiltered (up f) (up c)
  | NAnalytics f p o fr =>
    NAnalytics (up f) (option_map (map up) p) (option_map (map up) o)
      (option_map (fun f => (upper (fst f), upper (snd f))) fr)
  | NColumn v => NColumn (column_text v)
  | NChained l r => NChained (up l) (up r)
  | NType v => NType (upper v)
  | NDatePart p e => NDatePart (upper p) (up e)
  | NString v q p => NString v q p
  | NInt z => NInt z
  | NFloat t => NFloat t
  | NNull => NNull
  | NBool b => NBool b
  | NParen args => NParen (map up args)
  | NArray args => NArray (map up args)
  | NAlias e a w => NAlias (up e) (match a with inl t => inl t | inr x => inr (up x) end) w
  | NIndex e l => NIndex (up e) (map up l)
  | NArith op l r => NArith op (up l) (up r)
  | NBitwise e op r => NBitwise (up e) op (up r)
  | NTable v b => NTable (up v) b
  | NUnnest e wo was al =>
    NUnnest (match up e with
             | NFun _ l => NFun "unnest" l
             | NAlias (NFun _ l) a w => NAlias (NFun "unnest" l) a w
             | x => x end) wo was al
  | NJoin ty l r on_ using_ => NJoin ty (up l) (up r) (option_map up on_) (option_map up using_)
  | NCombined op l r => NCombined op (up l) (up r)
  | NCond e p r =>
    if str_eqb (lower p) "between"
    then NCond (up e) (upper p) (match up r with NBoolC _ a b => NBoolC "and" a b | x => x end)
    else NCond (up e) (if mem p ["is not"; "not in"] then p else upper p) (up r)
  | NBoolC ty l r => NBoolC (upper ty) (up l) (up r)
  | NNeg e => NNeg (up e)
  | NExcept e args => NExcept (up e) (map up args)
  | NReplace e args => NReplace (up e) (map up args)
  | NCase e ws els =>
    NCase (option_map up e) (map (fun wt => (up (fst wt), up (snd wt))) ws) (option_map up els)
  end.

(** ** Upper case *)
Lemma upper_c_idem : forall c, upper_c (upper_c c) = upper_c c.
Proof.
  intros c. unfold upper_c at 2 3. unfold is_lower_c. destruct ((97 <=? c) && (c <=? 122))%N eqn:E; [|unfold upper_c, is_lower_c; rewrite E; auto].
  unfold upper_c, is_lower_c. apply andb_true_iff in E as [A B]. apply N.leb_le in A, B.
  replace ((97 <=? c - 32) && (c - 32 <=? 122))%N with false; auto. symmetry. apply andb_false_iff. left. apply N.leb_gt. lia.
Qed.
Lemma upper_idem : forall s, upper (upper s) = upper s.
Proof. intros s. unfold upper. rewrite map_map. apply map_ext. apply upper_c_idem. Qed.
Lemma upper_c_fix : forall c (l : list N), (forall d, In d l -> is_upper_c d = false /\ is_lower_c d = false) -> existsb (N.eqb (upper_c c)) l = existsb (N.eqb c) l.
Proof.
  intros c l H. induction l as [|d l IH]; auto. cbn [existsb]. rewrite IH by (intros; apply H; right; auto). f_equal.
  destruct (H d (or_introl eq_refl)) as [U L]. unfold upper_c. destruct (is_lower_c c) eqn:E; auto.
  unfold is_upper_c, is_lower_c in *. apply andb_true_iff in E as [A B]. apply N.leb_le in A, B.
  apply andb_false_iff in U. apply andb_false_iff in L. rewrite !N.leb_gt in U, L.
  transitivity false; [|symmetry]; apply N.eqb_neq; intros X; subst; lia.
Qed.
Lemma word_char_upper : forall c, word_char (upper_c c) = word_char c.
Proof.
  intros c. unfold word_char. rewrite upper_c_fix; auto. intros d D. cbn in D. repeat (destruct D as [<-|D]; [split; reflexivity|]). contradiction.
Qed.
Lemma word_upper : forall w, word (upper w) = word w.
Proof.
  intros w. unfold word. f_equal; [destruct w; reflexivity|]. unfold upper. induction w as [|c w IH]; auto. cbn [map forallb]. rewrite IH, word_char_upper. auto.
Qed.
Lemma digit_upper : forall c, is_digit_c (upper_c c) = is_digit_c c.
Proof.
  intros c. unfold upper_c. destruct (is_lower_c c) eqn:E; auto. unfold is_digit_c, is_lower_c in *. apply andb_true_iff in E as [A B]. apply N.leb_le in A, B.
  transitivity false; [|symmetry]; apply andb_false_iff; right; apply N.leb_gt; lia.
Qed.
Lemma isdigit_upper : forall w, isdigit (upper w) = isdigit w.
Proof.
  intros w. unfold isdigit. destruct w as [|c w]; auto. unfold upper. cbn [map]. set (l := c :: w). change (upper_c c :: map upper_c w) with (map upper_c l). clearbody l.
  induction l as [|d l IH]; auto. cbn [map forallb]. rewrite IH, digit_upper. auto.
Qed.
Lemma ident_upper : forall v, ident (upper v) = ident v.
Proof. intros v. unfold ident. rewrite word_upper, isdigit_upper, lower_upper. auto. Qed.
Lemma ident_column : forall v, ident (column_text v) = ident v.
Proof. intros v. unfold column_text. destruct (mem v COLUMN_KEYWORDS); auto using ident_upper. Qed.
Lemma split_upper : forall f, split 32 (upper f) = map upper (split 32 f).
Proof.
  induction f as [|c f IH]; auto. cbn [split upper map]. change (map upper_c f) with (upper f). rewrite IH.
  assert (E : N.eqb (upper_c c) 32 = N.eqb c 32).
  { assert (X := upper_c_fix c [32%N]). cbn [existsb] in X. rewrite !orb_false_r in X. apply X. intros d [<-|[]]. split; reflexivity. }
  rewrite E. destruct (N.eqb c 32); [reflexivity|]. destruct (split 32 f); reflexivity.
Qed.
Lemma column_star : forall v, str_eqb (column_text v) "*" = str_eqb v "*".
Proof.
  intros v. unfold column_text. destruct (mem v COLUMN_KEYWORDS) eqn:Hm; auto. apply mem_In in Hm. cbn in Hm.
  repeat (destruct Hm as [<-|Hm]; [reflexivity|]). contradiction.
Qed.
Lemma column_idem : forall v, column_text (column_text v) = column_text v.
Proof.
  intros v. unfold column_text at 2 3. destruct (mem v COLUMN_KEYWORDS) eqn:Hm; [|unfold column_text; rewrite Hm; auto].
  unfold column_text. destruct (mem (upper v) COLUMN_KEYWORDS); auto using upper_idem.
Qed.

(** ** What does not change *)
Definition unn (e : node) : node :=
  match e with NFun _ l => NFun "unnest" l | NAlias (NFun _ l) a w => NAlias (NFun "unnest" l) a w | x => x end.
Definition btw (r : node) : node := match r with NBoolC _ a b => NBoolC "and" a b | x => x end.
Lemma up_unnest : forall e wo was al, up (NUnnest e wo was al) = NUnnest (unn (up e)) wo was al.
Proof. intros. cbn [up]. f_equal. destruct (up e); auto. destruct n; auto. Qed.
Lemma up_cond : forall e p r, up (NCond e p r) = if str_eqb (lower p) "between" then NCond (up e) (upper p) (btw (up r))
    else NCond (up e) (if mem p ["is not"; "not in"] then p else upper p) (up r).
Proof. intros. cbn [up]. destruct (str_eqb (lower p) "between"); auto. f_equal. destruct (up r); auto. Qed.
Ltac shape n := destruct n; try reflexivity; rewrite ?up_cond, ?up_unnest; try (destruct (str_eqb _ _); reflexivity).
Lemma up_sel : forall n, is_sel (up n) = is_sel n. Proof. intros n. shape n. Qed.
Lemma up_select : forall n, is_select (up n) = is_select n. Proof. intros n. shape n. Qed.
Lemma up_wth : forall n, is_wth (up n) = is_wth n. Proof. intros n. shape n. Qed.
Lemma up_with : forall n, is_with (up n) = is_with n. Proof. intros n. shape n. Qed.
Lemma up_str : forall n, is_str (up n) = is_str n. Proof. intros n. shape n. Qed.
Lemma up_paren : forall n, is_paren (up n) = is_paren n. Proof. intros n. shape n. Qed.
Lemma up_table : forall n, is_table (up n) = is_table n. Proof. intros n. shape n. Qed.
Lemma up_index : forall n, is_index (up n) = is_index n. Proof. intros n. shape n. Qed.
Lemma up_number : forall n, is_number (up n) = is_number n. Proof. intros n. shape n. Qed.
Lemma up_over : forall n, is_over (up n) = is_over n. Proof. intros n. shape n. Qed.
Lemma up_neg : forall n, is_neg (up n) = is_neg n. Proof. intros n. shape n. Qed.
Lemma up_call : forall n, is_call (up n) = is_call n. Proof. intros n. shape n. Qed.
Lemma up_column : forall n, is_column (up n) = is_column n. Proof. intros n. shape n. Qed.
Lemma star_eq : forall n, is_star n = match n with NColumn v => str_eqb v "*" | _ => false end.
Proof.
  intros n. destruct n; try reflexivity. cbn [is_star]. destruct v as [|c v]; auto. cbn [str_eqb].
  destruct (N.eqb_spec c 42) as [->|E]; [destruct v; reflexivity|].
  cbn [andb]. destruct c as [|p]; auto. do 6 (destruct p as [p|p|]; auto). congruence.
Qed.
Lemma up_star : forall n, is_star (up n) = is_star n.
Proof. intros n. rewrite !star_eq. shape n. apply column_star. Qed.
Lemma up_lvl : forall n, lvl (up n) = lvl n.
Proof. intros n. shape n. cbn [up lvl]. shape n. Qed.
Lemma up_flvl : forall n, flvl (up n) = flvl n.
Proof. intros n. shape n. cbn [up flvl]. destruct on_, using_; reflexivity. Qed.
Lemma up_lead : forall n, is_number (lead (up n)) = is_number (lead n).
Proof.
  induction n using node_ind'; destruct n; try reflexivity; try (cbn [up lead]; apply H; cbn; auto; fail);
    rewrite ?up_cond, ?up_unnest; try (destruct (str_eqb _ _); reflexivity).
Qed.
Lemma up_last : forall n, is_str (last_op (up n)) = is_str (last_op n).
Proof.
  induction n using node_ind'; destruct n; try reflexivity; try (cbn [up last_op]; apply H; cbn; auto; fail);
    rewrite ?up_cond, ?up_unnest; try (destruct (str_eqb _ _); reflexivity).
Qed.
Lemma up_paren1 : forall n, paren1 (up n) = paren1 n.
Proof. intros n. shape n. destruct args as [|? [|? ?]]; reflexivity. Qed.
Lemma up_clausable : forall n, clausable (up n) = clausable n.
Proof.
  intros n. unfold clausable. rewrite up_paren1. f_equal. shape n. cbn [up]. induction args as [|a l IH]; auto. cbn [map forallb]. rewrite IH, up_column. auto.
Qed.
Lemma up_bare : forall n, bare_select (up n) = bare_select n.
Proof.
  intros n. shape n. cbn [up bare_select]. destruct where_, group, having, order, limit, offset; reflexivity.
Qed.
Lemma up_one : forall n, one_column (up n) = one_column n.
Proof.
  induction n using node_ind'; destruct n; try reflexivity; rewrite ?up_cond, ?up_unnest; try (destruct (str_eqb _ _); reflexivity).
  - cbn [up one_column]. rewrite map_length. destruct from_ as [f|], group as [[[? ?] ?]|], order; cbn [option_map fst snd]; rewrite ?map_length; rewrite ?(H f) by (cbn [children]; chi); auto.
  - cbn [up one_column]. apply H. left. auto.
  - cbn [up one_column]. rewrite (H n1), (H n2) by child. auto.
  - cbn [up one_column]. rewrite (H n1), (H n2) by child. auto.
Qed.
Lemma up_noset : forall n, no_set (up n) = no_set n.
Proof.
  induction n using node_ind'; destruct n; try reflexivity; rewrite ?up_cond, ?up_unnest; try (destruct (str_eqb _ _); reflexivity).
  - cbn [up no_set]. f_equal; [f_equal|].
    + clear. induction exprs as [|a l IH]; auto. cbn [map forallb]. rewrite IH, up_lvl. auto.
    + destruct from_ as [f|]; auto. cbn [option_map]. apply H. child.
  - cbn [up no_set]. apply H. left. auto.
  - cbn [up no_set]. rewrite (H n1), (H n2) by child. auto.
Qed.

(** ** The tokens change in case only *)
Definition tsim (t t' : tok) : Prop :=
  match t, t' with Kw k, Kw k' => k' = k | Id i, Id i' => i' = i \/ i' = upper i | Num z, Num z' => z' = z | _, _ => False end.
Lemma sim_refl : forall l, Forall2 tsim l l.
Proof. induction l as [|[k|i|z] l IH]; constructor; cbn; auto. Qed.
Lemma sim_id : forall i i' l l', (i' = i \/ i' = upper i) -> Forall2 tsim l l' -> Forall2 tsim (Id i :: l) (Id i' :: l').
Proof. intros. constructor; auto. Qed.
Lemma sim_kw : forall k l l', Forall2 tsim l l' -> Forall2 tsim (Kw k :: l) (Kw k :: l').
Proof. intros. constructor; cbn; auto. Qed.
Lemma sim_app : forall a a' b b', Forall2 tsim a a' -> Forall2 tsim b b' -> Forall2 tsim (a ++ b) (a' ++ b').
Proof. intros. apply Forall2_app; auto. Qed.
Lemma sim_parens : forall a a', Forall2 tsim a a' -> Forall2 tsim (parens a) (parens a').
Proof. intros. unfold parens. apply sim_id; auto. apply sim_app; auto using sim_refl. Qed.
Lemma sim_brackets : forall a a', Forall2 tsim a a' -> Forall2 tsim (Grammar.brackets a) (Grammar.brackets a').
Proof. intros. unfold Grammar.brackets. apply sim_id; auto. apply sim_app; auto using sim_refl. Qed.
Lemma sim_commas : forall l l', Forall2 (Forall2 tsim) l l' -> Forall2 tsim (commas l) (commas l').
Proof.
  intros l l' H. induction H as [|x x' l l' A H IH]; [constructor|]. destruct H as [|y y' l l' B H]; [exact A|].
  change (commas (x :: y :: l)) with (x ++ Id "," :: commas (y :: l)). change (commas (x' :: y' :: l')) with (x' ++ Id "," :: commas (y' :: l')).
  apply sim_app; auto. apply sim_id; auto.
Qed.
Lemma sim_list : forall l, (forall x, In x l -> Forall2 tsim (toks x) (toks (up x))) -> Forall2 tsim (commas (map toks l)) (commas (map toks (map up l))).
Proof.
  intros l H. apply sim_commas. induction l as [|x l IH]; constructor; [apply H; left; auto|]. apply IH. intros; apply H; right; auto.
Qed.
Lemma up_mem_pred : forall p, mem p ["is not"; "not in"] = false -> mem (upper p) ["is not"; "not in"] = false.
Proof.
  intros p _. apply mem_false. intros [X|[X|[]]]; assert (Y := upper_idem p); rewrite <- X in Y; discriminate Y.
Qed.
Ltac sims := repeat first [apply sim_refl | assumption | apply sim_kw | apply sim_id; [auto; fail|] | apply sim_parens | apply sim_brackets | apply sim_app | apply sim_list; intros].
Definition ufun (e : node) : bool := match e with NFun _ _ | NAlias (NFun _ _) _ _ => true | _ => false end.
Definition untoks (e : node) : list tok :=
  match e with
  | NFun _ args => Kw "unnest" :: parens (commas (map toks args))
  | NAlias (NFun _ args) a w =>
    Kw "unnest" :: parens (commas (map toks args))
    ++ (if w then [Kw "as"] else []) ++ match a with inl t => [Id t] | inr x => toks x end
  | _ => toks e
  end.
Lemma up_ufun : forall e, ufun (up e) = ufun e.
Proof. intros e. shape e. cbn [up ufun]. shape e. Qed.
Lemma unn_id : forall e, ufun e = false -> unn e = e.
Proof. intros e U. destruct e; try reflexivity; try discriminate U. destruct e; try reflexivity; discriminate U. Qed.
Lemma untoks_id : forall e, ufun e = false -> untoks e = toks e.
Proof. intros e U. destruct e; try reflexivity; try discriminate U. destruct e; try reflexivity; discriminate U. Qed.
Definition is_boolc (e : node) : bool := match e with NBoolC _ _ _ => true | _ => false end.
Definition btoks (r : node) : list tok := match r with NBoolC _ a b => toks a ++ Kw "and" :: toks b | _ => toks r end.
Lemma up_boolc : forall e, is_boolc (up e) = is_boolc e. Proof. intros e. shape e. Qed.
Lemma btw_id : forall e, is_boolc e = false -> btw e = e.
Proof. intros e U. destruct e; try reflexivity; discriminate U. Qed.
Lemma btoks_id : forall e, is_boolc e = false -> btoks e = toks e.
Proof. intros e U. destruct e; try reflexivity; discriminate U. Qed.
Lemma up_toks : forall n, Forall2 tsim (toks n) (toks (up n)).
Proof.
  intros n. remember (size n) as k eqn:E. revert n E. induction k as [k IH0] using (well_founded_induction lt_wf). intros n ->.
  assert (H : forall m, size m < size n -> Forall2 tsim (toks m) (toks (up m))) by (intros m M; eapply IH0; eauto). clear IH0.
  assert (C : forall m, In m (children n) -> Forall2 tsim (toks m) (toks (up m))) by (intros m M; apply H, children_size; auto).
  destruct n.
  - (* NSelect *) cbn [up toks]. apply sim_kw. repeat apply sim_app.
    + destruct sel_all; [sims|]. destruct sel_distinct; [|sims]. apply sim_kw. destruct distinct_on as [l|]; [|sims]. cbn [option_map]. sims. apply C. child.
    + sims. apply C. child.
    + destruct from_ as [f|]; cbn [option_map]; sims. apply C. child.
    + destruct where_ as [f|]; cbn [option_map]; sims. apply C. child.
    + destruct group as [[[l r] ea]|]; cbn [option_map fst snd]; sims. apply C. child.
    + destruct having as [f|]; cbn [option_map]; sims. apply C. child.
    + destruct order as [l|]; cbn [option_map]; sims. apply C. child.
    + destruct limit as [[[|] [l|]]|]; cbn [option_map fst snd]; sims. apply C. child.
    + destruct offset as [l|]; cbn [option_map]; sims. apply C. child.
    + sims.
  - (* NWith *) cbn [up toks]. apply sim_kw. apply sim_app; [|apply C; child]. apply sim_commas. rewrite map_map.
    assert (Q : forall q, In q queries -> Forall2 tsim (toks (snd q)) (toks (up (snd q)))).
    { intros q I. apply C. cbn [children]. apply in_or_app. left. apply in_map. auto. }
    clear - Q. induction queries as [|q l IH]; constructor; [|apply IH; intros; apply Q; right; auto].
    cbn [fst snd]. sims. apply Q. left. auto.
  - cbn [up toks]. sims. apply C. child.
  - cbn [up toks]. sims. apply C. child.
  - cbn [up toks]. sims. apply C. child.
  - cbn [up toks]. sims. apply C. child.
  - cbn [up toks]. sims; try (apply C; child). destruct order as [l|]; cbn [option_map]; sims. apply C. child.
  - cbn [up toks]. sims; apply C; child.
  - (* NAnalytics *) cbn [up toks]. sims.
    + apply C; child.
    + destruct partition as [l|]; cbn [option_map]; sims. apply C. child.
    + destruct order as [l|]; cbn [option_map]; sims. apply C. child.
    + destruct frame as [[rr f]|]; cbn [option_map fst snd]; sims. rewrite split_upper. clear. induction (split 32 f); constructor; auto. cbn. auto.
  - cbn [up toks]. unfold column_text. destruct (mem v COLUMN_KEYWORDS); sims.
  - cbn [up toks]. sims; apply C; child.
  - cbn [up toks]. sims.
  - cbn [up toks]. sims. apply C. child.
  - cbn [up]. sims.
  - cbn [up]. sims.
  - cbn [up]. sims.
  - cbn [up]. sims.
  - cbn [up]. sims.
  - cbn [up toks]. sims. apply C. child.
  - cbn [up toks]. sims. apply C. child.
  - cbn [up toks]. sims; [apply C; child|]. destruct alias as [t|x]; sims. apply C. child.
  - cbn [up toks]. sims; apply C; child.
  - cbn [up toks]. sims; apply C; child.
  - cbn [up toks]. sims; apply C; child.
  - cbn [up toks]. destruct brackets; sims; apply C; child.
  - (* NUnnest *) rewrite up_unnest. cbn [toks]. apply sim_app; [|sims].
    change (Forall2 tsim (untoks n) (untoks (unn (up n)))).
    assert (X := C n (or_introl eq_refl)). destruct (ufun n) eqn:U.
    + destruct n; try discriminate U.
      * cbn [up unn untoks]. sims. apply H. cbn [size]. match goal with I : In _ _ |- _ => apply sizes_In in I end. lia.
      * destruct n; try discriminate U. cbn [up unn untoks]. sims.
        -- apply H. cbn [size]. match goal with I : In _ _ |- _ => apply sizes_In in I end. lia.
        -- destruct alias0 as [t|y]; sims. apply H. cbn [size]. lia.
    + rewrite (unn_id (up n)), !untoks_id by (rewrite ?up_ufun; auto). exact X.
  - cbn [up toks]. sims; try (apply C; child).
    + destruct on_ as [l|]; cbn [option_map]; sims. apply C. child.
    + destruct using_ as [l|]; cbn [option_map]; sims. apply C. child.
  - cbn [up toks]. sims; apply C; child.
  - (* NCond *) rewrite up_cond. destruct (str_eqb (lower pred) "between") eqn:B; cbn [toks].
    + rewrite lower_upper, B. assert (X := C n2 ltac:(child)). assert (Y := C n1 ltac:(child)). sims.
      change (Forall2 tsim (btoks n2) (btoks (btw (up n2)))). destruct (is_boolc n2) eqn:U.
      * destruct n2; try discriminate U. cbn [up btw btoks]. sims; apply H; cbn [size]; lia.
      * rewrite (btw_id (up n2)), !btoks_id by (rewrite ?up_boolc; auto). exact X.
    + destruct (mem pred ["is not"; "not in"]) eqn:Hm.
      * rewrite B, Hm. sims; apply C; child.
      * rewrite lower_upper, B, up_mem_pred by auto. sims; apply C; child.
  - cbn [up toks]. sims; apply C; child.
  - cbn [up toks]. sims; apply C; child.
  - cbn [up toks]. sims; apply C; child.
  - cbn [up toks]. sims; apply C; child.
  - (* NCase *) cbn [up toks]. apply sim_kw. repeat apply sim_app.
    + destruct e as [x|]; cbn [option_map]; sims. apply C. child.
    + assert (Q : forall q, In q whens -> Forall2 tsim (toks (fst q)) (toks (up (fst q))) /\ Forall2 tsim (toks (snd q)) (toks (up (snd q)))).
      { intros q I. split; apply C; cbn [children]; apply in_or_app; right; apply in_or_app; [left; apply in_map; auto|right; apply in_or_app; left; apply in_map; auto]. }
      clear - Q. induction whens as [|q l IH]; [constructor|]. cbn [map flat_map fst snd]. destruct (Q q (or_introl eq_refl)).
      apply sim_app; [sims|]. apply IH. intros; apply Q; right; auto.
    + destruct els as [x|]; cbn [option_map]; sims. apply C. child.
    + sims.
Qed.

Lemma sim_starts : forall L l l', Forall2 tsim l l' -> starts_with L l' = starts_with L l.
Proof. intros L l l' H. destruct H as [|[k|i|z] [k'|i'|z'] l l' A H]; cbn in *; try contradiction; auto; [subst; auto|]. destruct A as [->| ->]; rewrite ?lower_upper; auto. Qed.
Lemma sim_ident : forall l l', Forall2 tsim l l' -> starts_ident l' = starts_ident l.
Proof. intros l l' H. destruct H as [|[k|i|z] [k'|i'|z'] l l' A H]; cbn in *; try contradiction; auto. destruct A as [->| ->]; rewrite ?ident_upper; auto. Qed.

(** ** The fragment is closed *)
Lemma forallb_up : forall (f g : node -> bool) l, (forall x, In x l -> f x = true -> g (up x) = true) -> forallb f l = true -> forallb g (map up l) = true.
Proof.
  intros f g l. induction l as [|x l IH]; auto. intros H. cbn [map forallb]. rewrite !andb_true_iff. intros [A B]. split; [apply H; [left|]; auto|]. apply IH; auto. intros; apply H; auto. right; auto.
Qed.
Lemma nonnil_map : forall {A B} (f : A -> B) l, nonnil (map f l) = nonnil l.
Proof. intros A B f [|x l]; auto. Qed.
Section UP.
Variable n : node.
Hypothesis IH : forall m, size m < size n -> forall c, wf c m = true -> wf c (up m) = true.
Lemma up_ch : forall m c, In m (children n) -> wf c m = true -> wf c (up m) = true.
Proof. intros m c M. apply IH. apply children_size. auto. Qed.
Lemma up_arg : forall a, size a < size n -> argok a = true -> argok (up a) = true.
Proof. intros a M. unfold argok. rewrite up_sel, up_one, up_lvl. destruct (is_sel a); rewrite !andb_true_iff; intros [X Y]; auto. Qed.
Lemma up_args : forall l, (forall x, In x l -> size x < size n) -> forallb argok l = true -> forallb argok (map up l) = true.
Proof. intros l M. apply forallb_up. intros. apply up_arg; auto. Qed.
Lemma up_argc : forall l, incl l (children n) -> forallb argok l = true -> forallb argok (map up l) = true.
Proof. intros l M. apply up_args. intros. apply children_size. auto. Qed.
Lemma up_upto : forall k a, In a (children n) -> upto k a = true -> upto k (up a) = true.
Proof. intros k a M. unfold upto. rewrite up_lvl, !andb_true_iff. intros [X Y]; auto using up_ch. Qed.
Lemma up_uptos : forall k l, incl l (children n) -> forallb (upto k) l = true -> forallb (upto k) (map up l) = true.
Proof. intros k l M. apply forallb_up. intros. apply up_upto; auto. Qed.
Lemma up_items : forall l, incl l (children n) -> itemsok l = true -> itemsok (map up l) = true.
Proof.
  intros l M. unfold itemsok. rewrite nonnil_map, !andb_true_iff. intros [A B]. split; auto. revert B. apply forallb_up.
  intros x I. destruct x; try discriminate. cbn [up itemok]. rewrite up_lvl, !andb_true_iff. intros [[X Y] Z]. repeat split; auto.
  apply IH; auto. eapply Nat.lt_trans; [|apply children_size, M, I]. apply children_size. left. auto.
Qed.
Lemma up_oitems : forall o, incl (match o with Some l => l | None => [] end) (children n) -> oall itemsok o = true -> oall itemsok (option_map (map up) o) = true.
Proof. intros [l|] M; auto. apply up_items. auto. Qed.
Lemma up_als : forall a, (forall x, a = inr x -> size x < size n) -> alsok a = true -> alsok (match a with inl t => inl t | inr x => inr (up x) end) = true.
Proof. intros [t|x] M; auto. cbn [alsok]. rewrite up_str, !andb_true_iff. intros [X Y]; auto. Qed.
Lemma up_condok : forall c, In c (children n) -> condok c = true -> condok (up c) = true.
Proof. intros c M. unfold condok. rewrite up_lvl, up_clausable, !andb_true_iff. intros [[X Y] Z]; auto using up_ch. Qed.
End UP.
Lemma up_tab : forall v, wf Ex v = true -> wf Ex (up v) = true -> tableok v = true -> tableok (up v) = true.
Proof.
  intros v W W'. assert (X := up_lvl v). assert (Y := sim_ident _ _ (up_toks v)). unfold tableok. rewrite W, W'. cbn [andb].
  assert (Z : forall v, match v with NString _ _ _ | NChained _ _ | NAlias _ _ _ => true | _ => false end = false ->
    match v with
             | NString _ _ _ => true
             | NChained (NString _ _ _) _ => true
             | NAlias e _ _ => (lvl e <=? 4) && starts_ident (toks v)
             | _ => (lvl v <=? 4) && starts_ident (toks v)
             end = (lvl v <=? 4) && starts_ident (toks v)).
  { intros u. destruct u; auto; discriminate. }
  destruct (match v with NString _ _ _ | NChained _ _ | NAlias _ _ _ => true | _ => false end) eqn:E.
  - destruct v; try discriminate E; auto.
    + destruct (is_str v1) eqn:S.
      * destruct v1; try discriminate S. auto.
      * assert (Q : forall l r, is_str l = false -> match l with NString _ _ _ => true | _ => (lvl (NChained l r) <=? 4) && starts_ident (toks (NChained l r)) end = (lvl (NChained l r) <=? 4) && starts_ident (toks (NChained l r))).
        { intros l r. destruct l; auto; discriminate. }
        rewrite Q by auto. cbn [up] in *. rewrite Q by (rewrite up_str; auto). rewrite X, Y. auto.
    + cbn [up] in *. rewrite up_lvl, Y. auto.
  - rewrite !Z; [rewrite X, Y; auto| |]; auto. revert E. clear. destruct v; try discriminate; auto; intros _. rewrite up_cond. destruct (str_eqb _ _); auto.
Qed.
Lemma up_closed : forall e, closed_item (up e) = closed_item e.
Proof.
  intros e. shape e. cbn [up]. destruct brackets; shape e; cbn [up]; shape e1.
Qed.
Lemma up_asalias : forall e, as_alias e = true -> as_alias (up e) = true.
Proof. intros e. destruct e; try discriminate. auto. Qed.
Lemma up_wf_exp : forall n, (forall m, size m < size n -> forall c, wf c m = true -> wf c (up m) = true) -> wf Ex n = true -> wf Ex (up n) = true.
Proof.
  intros n IH W. destruct n; try discriminate W.
  - (* NFun *) cbn [up]. rewrite wf_fun in *. rewrite ident_upper, lower_upper, !andb_true_iff in *. destruct W as [[A B] C]. repeat split; auto. apply (up_argc _ IH); auto. intros x X; child.
  - cbn [up]. rewrite wf_cast in *. rewrite ident_upper, !andb_true_iff in *. destruct W. split; auto. apply (up_upto _ IH); auto. child.
  - cbn [up]. rewrite wf_count in *. rewrite nonnil_map, !andb_true_iff in *. destruct W. split; auto. apply (up_argc _ IH); auto. intros x X; child.
  - cbn [up]. rewrite wf_arrayagg in *. rewrite !andb_true_iff in *. destruct W as [[[A B] C] D]. repeat split; auto.
    + apply (up_upto _ IH); auto. child.
    + apply (up_oitems _ IH); auto. intros x X. child.
  - cbn [up]. rewrite wf_filtered in *. rewrite up_lvl, up_call, !andb_true_iff in *. destruct W as [[[A B] C] D]. repeat split; auto; apply (up_ch _ IH); auto; child.
  - cbn [up]. rewrite wf_analytics in *. rewrite up_lvl, up_over, !andb_true_iff in *. destruct W as [[[[[A B] C] D] E] F]. repeat split; auto.
    + apply (up_ch _ IH); auto. child.
    + destruct partition as [l|]; auto. cbn [option_map oall] in *. rewrite nonnil_map, andb_true_iff in *. destruct D. split; auto. apply (up_uptos _ IH); auto. intros x X; child.
    + apply (up_oitems _ IH); auto. intros x X. child.
    + destruct frame as [[rr f]|]; auto. cbn [option_map oall] in *. unfold frameok in *. cbn [fst snd] in *. rewrite lower_upper, split_upper, andb_true_iff in *. destruct F as [F G]. split; auto.
      clear - G. induction (split 32 f) as [|w l IHl]; auto. cbn [map forallb] in *. rewrite word_upper, lower_upper. apply andb_true_iff in G as [G1 G2]. rewrite G1. auto.
  - cbn [up wf]. rewrite ident_column, column_star. exact W.
  - cbn [up]. rewrite wf_chained in *. rewrite !up_lvl, up_number, up_star, up_index, up_lead, !andb_true_iff in *. destruct W as [[[[[[A B] C] D] E] F] G]. repeat split; auto; apply (up_ch _ IH); auto; child.
  - cbn [up]. rewrite wf_datepart in *. rewrite up_lvl, lower_upper, !andb_true_iff in *. destruct W as [[A B] C]. repeat split; auto; apply (up_ch _ IH); auto; child.
  - exact W.
  - exact W.
  - exact W.
  - exact W.
  - exact W.
  - cbn [up]. rewrite wf_paren in *. apply (up_argc _ IH); auto. intros x X; child.
  - cbn [up]. rewrite wf_array in *. apply (up_argc _ IH); auto. intros x X; child.
  - cbn [up]. rewrite wf_alias in *. rewrite up_lvl, !andb_true_iff in *. destruct W as [[A B] C]. repeat split; auto; [apply (up_ch _ IH); auto; child|].
    destruct alias as [t|x]; [auto|]. unfold aliasok in *. rewrite up_last, up_str, up_column, up_star.
    destruct with_as; rewrite ?andb_true_iff in *; [destruct C as [C D]|destruct C as [[C D] E]]; repeat split; auto; apply (up_ch _ IH); auto; child.
  - cbn [up]. rewrite wf_index in *. rewrite up_lvl, up_index, !andb_true_iff in *. destruct W as [[A B] C]. repeat split; auto; [apply (up_ch _ IH); auto; child|]. apply (up_argc _ IH); auto. intros x X; child.
  - cbn [up]. rewrite wf_arith in *. rewrite !up_lvl, !andb_true_iff in *. destruct W as [[[[A B] C] D] E]. repeat split; auto; apply (up_ch _ IH); auto; child.
  - cbn [up]. rewrite wf_bitwise in *. rewrite !up_lvl, !andb_true_iff in *. destruct W as [[[[A B] C] D] E]. repeat split; auto; apply (up_ch _ IH); auto; child.
  - (* NCond *) rewrite up_cond. rewrite wf_cond in W. destruct (str_eqb (lower pred) "between") eqn:B.
    + rewrite wf_cond, lower_upper, B. destruct n2; try (rewrite andb_false_r in W; discriminate W). cbn [up btw]. rewrite !up_lvl, !up_paren1, !andb_true_iff in *.
      destruct W as [[W1 W2] [[[[[[W3 W4] W5] W6] W7] W8] W9]]. repeat split; auto; try (apply IH; [cbn [size]; lia|auto]).
    + rewrite wf_cond, up_lvl. rewrite !andb_true_iff in *.
      destruct W as [[W1 W2] [[[W3 W4] W5] W6]]. repeat split; auto; try (apply IH; [cbn [size]; lia|auto]).
      destruct (mem pred ["is not"; "not in"]) eqn:Hm.
      * rewrite B, up_lvl, up_neg, W3, W5, W6. rewrite IH; auto. cbn [size]; lia.
      * rewrite lower_upper, B, up_lvl, up_neg, W5, W6, (IH n2) by (auto; cbn [size]; lia).
        rewrite !andb_true_r. apply orb_true_iff in W3 as [W3|W3]; [|rewrite W3; apply orb_true_r].
        apply mem_In in W3. cbn in W3. rewrite orb_true_iff. left. repeat (destruct W3 as [<-|W3]; [first [reflexivity | discriminate Hm]|]). contradiction.
  - cbn [up]. rewrite wf_boolc in *. rewrite !up_lvl, !up_paren1, lower_upper, !andb_true_iff in *. destruct W as [[[[[[A B] C] D] E] F] G]. repeat split; auto; apply (up_ch _ IH); auto; child.
  - cbn [up]. rewrite wf_neg in *. apply (up_upto _ IH); auto. child.
  - cbn [up]. rewrite wf_except in *. rewrite up_lvl, nonnil_map, !andb_true_iff in *. destruct W as [[[A B] C] D]. repeat split; auto; [apply (up_ch _ IH); auto; child|]. apply (up_argc _ IH); auto. intros x X; child.
  - cbn [up]. rewrite wf_replace in *. rewrite up_lvl, nonnil_map, !andb_true_iff in *. destruct W as [[[[A B] C] D] E]. repeat split; auto; [apply (up_ch _ IH); auto; child| |].
    + apply (up_argc _ IH); auto. intros x X; child.
    + revert E. apply forallb_up. intros. apply up_asalias. auto.
  - cbn [up]. rewrite wf_case in *. rewrite nonnil_map, !andb_true_iff in *. destruct W as [[[A B] C] D]. repeat split; auto.
    + destruct e as [x|]; auto. cbn [option_map oall] in *. rewrite up_lvl, !andb_true_iff, (sim_starts _ _ _ (up_toks x)) in *. destruct A as [[A1 A2] A3]. repeat split; auto. apply (up_ch _ IH); auto. child.
    + assert (Q : forall q, In q whens -> size (fst q) < size (NCase e whens els) /\ size (snd q) < size (NCase e whens els)).
      { intros q I. split; apply children_size; cbn [children]; apply in_or_app; right; apply in_or_app; [left; apply in_map; auto|right; apply in_or_app; left; apply in_map; auto]. }
      clear - Q C IH. remember (size (NCase e whens els)) as k. clear Heqk. induction whens as [|q l IHl]; auto. cbn [map forallb fst snd] in *. apply andb_true_iff in C as [C1 C2].
      rewrite IHl by (auto; intros; apply Q; right; auto). rewrite andb_true_r. destruct (Q q (or_introl eq_refl)). unfold wtok in *. cbn [fst snd].
      rewrite !up_lvl, up_clausable, !andb_true_iff in *. destruct C1 as [[[[X1 X2] X3] X4] X5]. repeat split; auto.
    + destruct els as [x|]; auto. apply (up_upto _ IH); auto. child.
Qed.
Lemma up_wf_from : forall n, (forall m, size m < size n -> forall c, wf c m = true -> wf c (up m) = true) -> wf Fr n = true -> wf Fr (up n) = true.
Proof.
  intros n IH W. destruct n; try discriminate W.
  - (* NParen *) destruct args as [|f [|? ?]]; try discriminate W. cbn [up map].
    change ((if is_sel f || is_wth f then wf St f else wf Fr f) = true) in W. change ((if is_sel (up f) || is_wth (up f) then wf St (up f) else wf Fr (up f)) = true). rewrite up_sel, up_wth.
    destruct (is_sel f || is_wth f); apply (up_ch _ IH); auto; child.
  - rewrite wf_falias in W. cbn [up]. rewrite wf_falias, up_closed. rewrite !andb_true_iff in *. destruct W as [[A B] C]. repeat split; auto; [apply (up_ch _ IH); auto; child|].
    apply (up_als _ IH); auto. intros x ->. apply children_size. child.
  - cbn [up]. rewrite wf_table in *. destruct brackets; [apply (up_upto _ IH); auto; child|].
    assert (V := W). unfold tableok in V. apply andb_true_iff in V as [V _]. apply up_tab; auto; try (apply (up_ch _ IH); auto; child).
  - rewrite up_unnest. rewrite wf_unnest in *. rewrite !andb_true_iff in *. destruct W as [[A B] C]. repeat split; auto. destruct n; try discriminate A.
    + cbn [up unn unnestok] in *. rewrite !andb_true_iff in *. destruct A. split; auto. apply (up_args _ IH); auto. intros x X. cbn [size]. apply sizes_In in X. lia.
    + destruct n; try discriminate A. cbn [up unn unnestok] in *. rewrite !andb_true_iff in *. destruct A as [[A1 A2] A3]. repeat split; auto.
      * apply (up_args _ IH); auto. intros x X. cbn [size]. apply sizes_In in X. lia.
      * apply (up_als _ IH); auto. intros x ->. cbn [size]. lia.
  - cbn [up]. rewrite wf_join in *. rewrite up_flvl, !andb_true_iff in *. destruct W as [[[A B] C] D]. repeat split; auto; try (apply (up_ch _ IH); auto; child).
    unfold joinok in *. rewrite up_flvl. destruct (mem ty _); [destruct on_, using_; try discriminate D; auto|].
    rewrite !andb_true_iff in *. destruct D as [D1 D2]. split; auto. destruct on_, using_; try discriminate D2; cbn [option_map]; apply (up_condok _ IH); auto; child.
  - cbn [up]. rewrite wf_combined in *. rewrite !up_flvl, up_noset, up_sel, up_bare, !andb_true_iff in *. destruct W as [[[[A B] C] D] E]. repeat split; auto; try (apply (up_ch _ IH); auto; child).
    destruct (is_sel n2); rewrite andb_true_iff in *; destruct D; split; auto; apply (up_ch _ IH); auto; child.
Qed.
Lemma up_wf_stmt : forall n, (forall m, size m < size n -> forall c, wf c m = true -> wf c (up m) = true) -> wf St n = true -> wf St (up n) = true.
Proof.
  intros n IH W. destruct n; try discriminate W.
  - cbn [up]. rewrite wf_select in *. rewrite nonnil_map, !andb_true_iff in *. decompose [and] W. clear W. repeat split; auto.
    + destruct distinct_on as [l|]; auto. cbn [option_map donok] in *. rewrite nonnil_map, !andb_true_iff in *. intuition. apply (up_uptos _ IH); auto. intros x X. child.
    + apply (up_uptos _ IH); auto. intros x X. child.
    + destruct from_ as [f|]; auto. apply (up_ch _ IH); auto. child.
    + destruct where_ as [f|]; auto. apply (up_condok _ IH); auto. child.
    + destruct group as [[[l ?] ?]|]; auto. cbn [option_map groupok fst snd] in *. rewrite nonnil_map, !andb_true_iff in *. intuition. apply (up_uptos _ IH); auto. intros x X. child.
    + destruct having as [f|]; auto. apply (up_condok _ IH); auto. child.
    + apply (up_oitems _ IH); auto. intros x X. child.
    + destruct limit as [[[|] [l|]]|]; auto. apply (up_upto _ IH); auto. child.
    + destruct offset as [l|]; auto. apply (up_upto _ IH); auto. child.
  - cbn [up]. rewrite wf_with in *. rewrite nonnil_map, up_sel, !andb_true_iff in *. destruct W as [[[A B] C] D]. repeat split; auto; [|apply (up_ch _ IH); auto; child].
    assert (Q : forall q, In q queries -> size (snd q) < size (NWith queries n)).
    { intros q I. apply children_size. cbn [children]. apply in_or_app. left. apply in_map. auto. }
    clear - Q B IH. remember (size (NWith queries n)) as k. clear Heqk. induction queries as [|q l IHl]; auto. cbn [map forallb fst snd] in *. apply andb_true_iff in B as [C1 C2].
    rewrite IHl by (auto; intros; apply Q; right; auto). rewrite andb_true_r. unfold wqok in *. cbn [fst snd]. rewrite up_sel, !andb_true_iff in *. intuition.
Qed.
Lemma wf_up : forall n c, wf c n = true -> wf c (up n) = true.
Proof.
  intros n. remember (size n) as k eqn:E. revert n E. induction k as [k IH] using (well_founded_induction lt_wf). intros n -> c.
  assert (H : forall m, size m < size n -> forall c, wf c m = true -> wf c (up m) = true) by (intros m M; eapply IH; eauto).
  destruct c; auto using up_wf_exp, up_wf_from, up_wf_stmt.
Qed.
Lemma up_semi : forall b n, with_semi b (up n) = up (with_semi b n).
Proof.
  assert (X : forall b qs n, is_sel n = false -> with_semi b (NWith qs n) = NWith qs n) by (intros b qs n; destruct n; auto; discriminate).
  intros b n. shape n. destruct (is_sel n) eqn:E; [destruct n; try discriminate E; reflexivity|]. rewrite X by auto. cbn [up]. rewrite X by (rewrite up_sel; auto). auto.
  cbn [with_semi]. rewrite up_cond. destruct (str_eqb _ _); reflexivity.
Qed.
Lemma statement_up : forall n, statement n = true -> statement (up n) = true.
Proof. intros n. unfold statement. rewrite up_semi. apply wf_up. Qed.
