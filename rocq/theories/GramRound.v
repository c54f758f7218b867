(** Formatting a statement of the fragment: the formatted text, its tokens, its tree. *)
From Verif Require Import PyStr PyFloat Lib Digits AstLib Ast Tokeniser Parser Api Grammar Scan GramTok GramExpr GramStmt Render RenderEq LexText GramUp GramAlike GramText GramRender GramExp2 GramFrom GramPrint SpecRound GramEntry GramCase.
Local Open Scope str_scope.
Local Open Scope list_scope.

(** ** The printed tokens are a spelling *)
Definition kwl (ts : list tok) : Prop := Forall (fun t => match t with Kw k => lower k = k | Id _ => True | Num z => (0 <= z)%Z end) ts.
Lemma kwl_app : forall a b, kwl a -> kwl b -> kwl (a ++ b).
Proof. intros. apply Forall_app; auto. Qed.
Lemma kwl_commas : forall l, (forall x, In x l -> kwl x) -> kwl (commas l).
Proof.
  induction l as [|x l IH]; intros H; [constructor|]. destruct l as [|y l]; [apply H; left; auto|].
  change (kwl (x ++ Id "," :: commas (y :: l))). apply kwl_app; [apply H; left; auto|]. constructor; [exact I|]. apply IH. intros z Z. apply H. right. auto.
Qed.
Lemma kwl_kws : forall s, kwl (kws s).
Proof. intros s. unfold kws. rewrite split_lower. apply Forall_forall. intros t T. apply in_map_iff in T as (w & <- & W). apply in_map_iff in W as (v & <- & _). apply lower_idem. Qed.
Lemma kwl_ids : forall l, kwl (map Id l).
Proof. intros l. apply Forall_forall. intros t T. apply in_map_iff in T as (w & <- & W). exact I. Qed.
Lemma kwl_map : forall l, (forall x, In x l -> kwl (toks x)) -> kwl (commas (map toks l)).
Proof. intros l H. apply kwl_commas. intros x X. apply in_map_iff in X as (y & <- & Y). auto. Qed.
Lemma kwl_canon : forall ts, kwl ts -> spelling ts (map canon ts).
Proof. intros ts H. induction H as [|t ts A B IH]; constructor; auto. destruct t; cbn [spells canon]; auto; [rewrite lower_upper; auto|]. split; [apply str_of_Z_digits; auto|apply value_Z; auto]. Qed.
Lemma kwl_num : forall z l, (0 <= z)%Z -> kwl l -> kwl (Num z :: l).
Proof. constructor; auto. Qed.
Lemma kwl_nil : kwl [].
Proof. constructor. Qed.
Lemma kwl_kw : forall k l, lower k = k -> kwl l -> kwl (Kw k :: l).
Proof. constructor; auto. Qed.
Lemma kwl_id : forall k l, kwl l -> kwl (Id k :: l).
Proof. constructor; auto. Qed.
Ltac kw1 := repeat first [apply kwl_nil | apply kwl_kw; [reflexivity|] | apply kwl_id | apply kwl_num; [lia|] | apply kwl_app | apply kwl_kws | apply kwl_ids | assumption].
Ltac kmv IH := match goal with
  | |- kwl (if ?b then _ else _) => is_var b; destruct b
  | |- kwl (match ?o with Some _ => _ | None => _ end) => is_var o; destruct o
  | |- kwl (match ?o with (_, _) => _ end) => is_var o; destruct o
  | |- kwl (match ?o with inl _ => _ | inr _ => _ end) => is_var o; destruct o
  end.
Ltac km IH := repeat first [progress kw1 | apply kwl_map; intros | apply IH; child | kmv IH].
Lemma kwl_toks : forall n, kwl (toks n).
Proof.
  apply node_ind'. intros n IH. destruct n; cbn [toks]; unfold parens, Grammar.brackets; try (km IH; fail).
  - km IH. apply kwl_commas. intros x X. apply in_map_iff in X as (q & <- & Q). kw1. apply IH. cbn [children]. apply in_or_app. left. apply in_map. auto.
  - destruct (Z.ltb_spec z 0); kw1.
  - destruct text as [|c t]; kw1. destruct c as [|c]; kw1. do 6 (destruct c as [c|c|]; kw1).
  - destruct b; kw1.
  - assert (X := IH n ltac:(child)). km IH. clear IH. assert (Y : forall name l, kwl (toks (NFun name l)) -> kwl (parens (commas (map toks l)))) by (intros name l Z; inversion Z; auto).
    destruct n; auto; [apply Y in X; constructor; auto; reflexivity|]. destruct n; auto. cbn [toks] in X. apply Forall_app in X as [X1 X2]. inversion X1. constructor; [reflexivity|]. apply kwl_app; auto.
  - destruct (str_eqb ty ","); km IH.
  - assert (X := IH n2 ltac:(child)). destruct (str_eqb _ _).
    + km IH. destruct n2; auto. cbn [toks] in X. apply Forall_app in X as [X1 X2]. inversion X2. kw1.
    + destruct (mem _ _); km IH.
  - km IH. assert (Q : forall q, In q whens -> kwl (toks (fst q)) /\ kwl (toks (snd q))).
    { intros q I. split; apply IH; cbn [children]; apply in_or_app; right; apply in_or_app; [left; apply in_map; auto|right; apply in_or_app; left; apply in_map; auto]. }
    clear IH. induction whens as [|q l I]; [constructor|]. cbn [flat_map]. destruct (Q q (or_introl eq_refl)). kw1. apply I. intros. apply Q. right. auto.
Qed.

(** ** The formatted text of a tree *)
Theorem printed : forall n, statement n = true -> exists s, transform n = Ok s /\ T s (map prints (entries n)) /\ s <> [] /\ map prints (entries n) = map canon (toks (up n)).
Proof.
  intros n W. assert (SH := statement_shape n W). unfold statement in W.
  destruct (good_all (with_semi false n)) as (_ & G & _). destruct (G W Tr) as (s & R & X); [discriminate|]. cbn [wrapm] in X.
  assert (NE : s <> []).
  { intros ->. destruct X as (rs & L & [Y _]). assert (Z := lexes_raw _ _ L). cbn in Z. subst rs. cbn in Y. unfold ct in Y. destruct n; try discriminate W; [discriminate Y|]. destruct n; try discriminate SH. discriminate Y. }
  assert (E1 := pr_ct _ _ W). unfold pr in E1. destruct (semi_cases n SH) as [E|E].
  - exists s. rewrite E. unfold transform. rewrite E1. auto.
  - exists (s ++ ";"). rewrite E. unfold transform. rewrite render_semi, R by auto. split; auto. rewrite entries_semi by auto. rewrite map_app, E1.
    assert (U : stmt_shape (up n) = true).
    { clear - SH. destruct n; try discriminate SH; auto. cbn [up stmt_shape is_sel orb] in *. rewrite up_sel. auto. }
    rewrite <- (up_semi true), toks_semi by auto. rewrite map_app, up_semi. split; [|split; [destruct s; discriminate|reflexivity]].
    apply T_app; auto; [fixed|]. apply joint_r. reflexivity.
Qed.
Theorem round_trip : forall n, statement n = true -> exists s, transform n = Ok s
  /\ to_tokens s = (map prints (entries n), None) /\ parse_sql s = Ok (up n) /\ format_sql s = Ok s.
Proof.
  intros n W. destruct (printed n W) as (s & R & X & NE & E). exists s. split; auto. assert (TT := T_tokens _ _ X NE). split; auto.
  assert (P : parse_sql s = Ok (up n)).
  { unfold parse_sql. rewrite TT, E. apply parse_spelling; [apply statement_up; auto|]. apply kwl_canon, kwl_toks. }
  split; auto. unfold format_sql. rewrite P. cbn [rbind]. unfold transform in *. rewrite transform_up; auto.
Qed.
Theorem written : forall n q ts, statement n = true -> to_tokens q = (ts, None) -> Forall2 reads (entries n) ts -> format_sql q = transform n.
Proof.
  intros n q ts W TT H. destruct (respell n W ts H) as (n' & W' & U & S).
  assert (P : parse_sql q = Ok n') by (unfold parse_sql; rewrite TT; apply parse_spelling; auto).
  unfold format_sql. rewrite P. cbn [rbind]. unfold transform. rewrite <- (transform_up n' W'), U. apply transform_up; auto.
Qed.
Lemma idempotent : forall q n, parse_sql q = Ok n -> statement n = true -> exists t, format_sql q = Ok t /\ format_sql t = Ok t.
Proof.
  intros q n P W. destruct (round_trip n W) as (s & R & _ & _ & F). exists s. split; auto. unfold format_sql. rewrite P. exact R.
Qed.
Lemma tokens_kept : forall n q ts, statement n = true -> to_tokens q = (ts, None) -> Forall2 reads (entries n) ts ->
  exists t, format_sql q = Ok t /\ to_tokens t = (map prints (entries n), None).
Proof.
  intros n q ts W TT H. destruct (round_trip n W) as (s & R & S & _). exists s. split; auto. rewrite (written n q ts); auto.
Qed.
Lemma case_irrelevant : forall n q1 q2 ts1 ts2, statement n = true
  -> to_tokens q1 = (ts1, None) -> Forall2 reads (entries n) ts1
  -> to_tokens q2 = (ts2, None) -> Forall2 reads (entries n) ts2
  -> exists t, format_sql q1 = Ok t /\ format_sql q2 = Ok t.
Proof.
  intros n q1 q2 ts1 ts2 W T1 H1 T2 H2. destruct (round_trip n W) as (s & R & _). exists s.
  rewrite (written n q1 ts1), (written n q2 ts2); auto.
Qed.
Lemma reads_prints : forall n ts, Forall2 reads (entries n) ts -> Forall2 alike ts (map prints (entries n)).
Proof.
  intros n ts H. induction H as [|e s l l' H _ I]; constructor; auto. unfold alike. destruct e; cbn [reads prints] in *; subst; auto.
  - left. rewrite lower_upper, lower_idem. auto.
  - left. destruct (mem _ _); auto. rewrite lower_upper. auto.
  - right. destruct H as [D <-]. assert (V := value_nonneg s D). split; auto. split; [apply str_of_Z_digits|apply value_Z]; auto.
Qed.
Lemma tokens_kept_alike : forall n q ts, statement n = true -> to_tokens q = (ts, None) -> Forall2 reads (entries n) ts ->
  exists t ts', format_sql q = Ok t /\ to_tokens t = (ts', None) /\ Forall2 alike ts ts'.
Proof.
  intros n q ts W TT H. destruct (tokens_kept n q ts W TT H) as (t & F & S). exists t, (map prints (entries n)).
  split; auto. split; auto. apply reads_prints. auto.
Qed.
