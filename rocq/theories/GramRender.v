(** Every expression, FROM item and statement of the fragment prints, and the text lexes into the
    tokens of its upper-cased form. *)
From Verif Require Import PyStr PyFloat Lib Digits AstLib Ast Tokeniser SpecTok ProofTok ProofTok2 ProofTok3 Grammar Scan GramTok GramExpr Render RenderEq LexText GramUp GramAlike GramText.
Local Open Scope str_scope.
Local Open Scope list_scope.

Definition ends (n : node) (s : str) : Prop :=
  (lvl n <= 0 -> is_number n = false -> is_star n = false -> dotl s)
  /\ (lvl n <= 1 \/ is_index n = true -> is_number (lead n) = false -> dotr s).
Definition GE (n : node) : Prop := wf Ex n = true ->
  (exists s, render Tr n = Ok s /\ T s (ct n) /\ ends n s) /\ (paren1 n = true -> Good NL n (ct n)).
Definition GS (n : node) : Prop := wf St n = true -> forall m, m <> Str -> Good m n (wrapm m (ct n)).
Definition fm (m : mode) : bool := match m with Str | NL | Clause | When => false | _ => true end.
Definition GF (n : node) : Prop := wf Fr n = true -> forall m, fm m = true -> Good m n (wrapm m (ct n)).
Definition GA (n : node) : Prop := GE n /\ GS n /\ GF n.

Ltac fin := ctn; reflexivity.
Lemma ct_nonnil : forall n, wf Ex n = true -> ct n <> [].
Proof. intros n W X. apply (toks_nonnil (up n)); [apply wf_up; auto|]. unfold ct in X. apply map_eq_nil in X. auto. Qed.
Lemma T_eqs : forall s ts ts', ts = ts' -> T s ts -> T s ts'.
Proof. intros; subst; auto. Qed.

Section G.
Variable n : node.
Hypothesis IH : forall x, size x < size n -> GA x.
Lemma g_ex : forall x, size x < size n -> wf Ex x = true -> exists s, render Tr x = Ok s /\ T s (ct x) /\ ends x s.
Proof. intros x S W. destruct (IH x S) as (A & _). apply A; auto. Qed.
Lemma g_exc : forall x, In x (children n) -> wf Ex x = true -> exists s, render Tr x = Ok s /\ T s (ct x) /\ ends x s.
Proof. intros x S W. apply g_ex; auto. apply children_size; auto. Qed.
Lemma g_tr : forall x, In x (children n) -> wf Ex x = true -> Good Tr x (ct x).
Proof. intros x S W. destruct (g_exc x S W) as (s & A & B & _). exists s. auto. Qed.
Lemma g_str : forall x, size x < size n -> wf Ex x = true -> lvl x <= 3 -> Good Str x (ct x).
Proof. intros x S W L. destruct (g_ex x S W) as (s & A & B & _). exists s. rewrite render_str; auto. Qed.
Lemma g_strs : forall k l, k <= 3 -> incl l (children n) -> forallb (upto k) l = true -> exists ss, rmap (render Str) l = Ok ss /\ Forall2 T ss (map ct l).
Proof. intros k l K S W. apply good_list. intros x X. rewrite forallb_forall in W. specialize (W x X). bools. apply g_str; auto; [apply children_size; auto|lia]. Qed.
Lemma g_nl : forall x, size x < size n -> wf Ex x = true -> paren1 x = true -> Good NL x (ct x).
Proof. intros x S W P. destruct (IH x S) as (A & _). apply A; auto. Qed.
Lemma g_arg : forall x m, size x < size n -> argok x = true -> m = Tr \/ m = Sub -> Good m x (ct x).
Proof.
  intros x m S W M. destruct (IH x S) as (A & B & _). unfold argok in W. destruct (is_sel x) eqn:E; bools.
  - assert (C := B ltac:(auto) m). destruct M; subst; apply C; discriminate.
  - destruct (A ltac:(auto)) as ((s & X & Y & _) & _). exists s. destruct M; subst; rewrite ?render_sub; auto.
Qed.
Lemma g_argsz : forall l m, (forall x, In x l -> size x < size n) -> forallb argok l = true -> m = Tr \/ m = Sub -> exists ss, rmap (render m) l = Ok ss /\ Forall2 T ss (map ct l).
Proof. intros l m S W M. apply good_list. intros x X. rewrite forallb_forall in W. apply g_arg; auto. Qed.
Lemma g_args : forall l, incl l (children n) -> forallb argok l = true -> exists ss, rmap (render Tr) l = Ok ss /\ Forall2 T ss (map ct l).
Proof. intros l S W. apply g_argsz; auto. intros. apply children_size; auto. Qed.
Lemma g_items : forall l, incl l (children n) -> itemsok l = true -> exists ss, rmap (render Str) l = Ok ss /\ Forall2 T ss (map ct l) /\ ss <> [].
Proof.
  intros l S W. unfold itemsok in W. apply andb_true_iff in W as [NN W].
  destruct (good_list Str l) as (ss & A & B).
  { intros x X. rewrite forallb_forall in W. specialize (W x X). destruct x; try discriminate W. cbn [itemok] in W. bools.
    destruct (g_str x) as (s & E & TT); auto.
    { eapply Nat.lt_trans; [|apply children_size, S, X]. apply children_size. left; auto. }
    eexists. rewrite render_NOrderItem, E. cbn [rbind finish]. split; [reflexivity|]. eapply T_eq; [apply (T_app _ _ _ (if asc then ["ASC"] else if desc then ["DESC"] else []) TT)|].
    - destruct asc; [fixed|]. destruct desc; [fixed|apply T_nil].
    - apply joint_r. destruct asc; auto. destruct desc; auto.
    - ctn. destruct asc; [reflexivity|]. destruct desc; reflexivity. }
  exists ss. repeat split; auto. intros ->. destruct l; [discriminate NN|inversion B].
Qed.
End G.
Lemma T_order : forall b ss l, Forall2 T ss (map ct l) -> ss <> [] -> exists t, order_text b ss = Ok t /\ TB t (joint_toks [","] (map ct l)).
Proof.
  intros b ss l F NE. unfold order_text. destruct ss as [|s [|s' ss]]; [congruence| |].
  - eexists. split; [reflexivity|]. destruct l as [|x [|y l]]; inversion F; subst; [|match goal with X : Forall2 T [] _ |- _ => inversion X end]. split; auto. cbn [map joint_toks]. tk. reflexivity.
  - eexists. split; [reflexivity|]. split; [|destruct b; [apply hdb_indent|]; auto]. destruct b; (tk; [list_|reflexivity]).
Qed.
Lemma good_m : forall n m, regular n = true -> m <> Str -> Good Tr n (ct n) -> Good m n (wrapm m (ct n)).
Proof. intros. apply regular_good; auto. Qed.
Lemma ge_regular : forall n, regular n = true -> (exists s, render Tr n = Ok s /\ T s (ct n) /\ ends n s) ->
  (exists s, render Tr n = Ok s /\ T s (ct n) /\ ends n s) /\ (paren1 n = true -> Good NL n (ct n)).
Proof. intros n R H. split; auto. intros _. apply (regular_good n NL (ct n) R). destruct H as (s & A & B & _). exists s. auto. Qed.
Lemma rmap_some : forall {A B} (f : A -> R B) l ss, rmap f l = Ok ss -> nonnil l = true -> ss <> [].
Proof. intros A B f [|x l] ss E N; [discriminate|]. cbn [rmap] in E. destruct (f x); [|discriminate]. cbn [rbind] in E. destruct (rmap f l); [|discriminate]. injection E as <-. discriminate. Qed.
Lemma T_all : forall e ts kw ss l, T e ts -> word kw = true -> Forall2 T ss (map ct l) -> ss <> [] ->
  exists t, select_all_text e kw ss = Ok t /\ T t (ts ++ kw :: "(" :: joint_toks [","] (map ct l) ++ [")"]).
Proof.
  intros e ts kw ss l TE W F NE. assert (TK := T_word kw W). unfold select_all_text. destruct ss as [|s [|s' ss]]; [congruence| |].
  - eexists. split; [reflexivity|]. destruct l as [|x [|y l]]; inversion F; subst; [|match goal with X : Forall2 T [] _ |- _ => inversion X end]. cbn [map joint_toks]. tk. nrm. reflexivity.
  - eexists. split; [reflexivity|]. tk; [list_|]. nrm. reflexivity.
Qed.
Lemma ends_hi : forall n s, 2 <= lvl n -> is_index n = false -> ends n s.
Proof. intros n s L I. split; [lia|]. intros [X|X]; [lia|congruence]. Qed.
Lemma g_paren_args : forall n l, (forall x, size x < size n -> GA x) -> incl l (children n) -> forallb argok l = true ->
  exists ss, rmap (fun a => t <- render Sub a ;; Ok (if is_select a then nl ++ t ++ nl else t)) l = Ok ss /\ Forall2 T ss (map ct l).
Proof.
  intros n l IH S W. induction l as [|x l I]; [exists []; split; auto; constructor|]. cbn [forallb] in W. apply andb_true_iff in W as [W1 W2].
  destruct (g_arg n IH x Sub) as (s & E & X); [apply children_size, S; left; auto|auto|auto|].
  destruct I as (ss & E' & F); [intros y Y; apply S; right; auto|auto|].
  exists ((if is_select x then nl ++ s ++ nl else s) :: ss). split; [cbn [rmap]; rewrite E; cbn [rbind]; rewrite E'; auto|]. constructor; auto.
  destruct (is_select x); [tk; nrm; reflexivity|auto].
Qed.
Lemma upper_of : forall p k, lower p = k -> upper p = upper k.
Proof. intros p k <-. rewrite upper_lower. auto. Qed.
Lemma word_kw : forall p l, In (lower p) l -> forallb word l = true -> word (upper p) = true.
Proof. intros p l I W. rewrite word_upper, <- word_upper, <- upper_lower, word_upper. rewrite forallb_forall in W. auto. Qed.
Lemma T_kw : forall p l, In (lower p) l -> forallb word l = true -> T (upper p) [upper p].
Proof. intros p l I W. apply T_word. eapply word_kw; eauto. Qed.
Lemma ge_paren : forall n args, n = NParen args -> (forall x, size x < size n -> GA x) -> GE n.
Proof.
  intros n args -> IH W. rewrite wf_paren in W. destruct (g_paren_args _ args IH) as (ss & E & F); [intros x X; child|auto|].
  split.
  - exists ("(" ++ join ", " ss ++ ")"). rewrite render_NParen. cbn zeta. rewrite E. cbn [rbind]. repeat split.
    + tk; [list_|]. fin.
    + intros. dl.
    + intros. dr.
  - intros P. destruct args as [|a [|? ?]]; try discriminate P. cbn [forallb] in W. bools.
    destruct (g_arg _ IH a Tr) as (s & E1 & X); [apply children_size; child|auto|auto|].
    eexists. rewrite render_NParen. cbn zeta. cbn [rmap] in E. rewrite E1. cbn [rbind]. split; [reflexivity|]. destruct (has_nl s); (tk; fin).
Qed.
Lemma bool_texts : forall n ty l r, (forall x, size x < size n -> GA x) -> size l < size n -> size r < size n ->
  In (lower ty) BOOL_PREDICATES -> wf Ex l = true -> wf Ex r = true -> paren1 l = true -> paren1 r = true ->
  Good Tr (NBoolC ty l r) (ct l ++ upper ty :: ct r) /\ Good NL (NBoolC ty l r) (ct l ++ upper ty :: ct r).
Proof.
  intros n ty l r IH SL SR B WL WR PL PR.
  destruct (g_ex _ IH l) as (a & A1 & A2 & _); auto. destruct (g_ex _ IH r) as (b & B1 & B2 & _); auto.
  destruct (g_nl _ IH l) as (c & C1 & C2); auto. destruct (g_nl _ IH r) as (d & D1 & D2); auto.
  assert (K := T_kw ty _ B eq_refl).
  assert (X : T (c ++ nl ++ upper ty ++ " " ++ d) (ct l ++ upper ty :: ct r)) by (tk; nrm; reflexivity).
  assert (Y : T (a ++ " " ++ upper ty ++ " " ++ b) (ct l ++ upper ty :: ct r)) by (tk; nrm; reflexivity).
  unfold Good. rewrite !render_NBoolC, A1, B1, C1, D1. cbn [rbind]. rewrite andb_false_r, andb_true_r. split.
  - destruct (_ <? _); cbn [rbind finish]; eauto.
  - cbn [rbind finish]. eauto.
Qed.
Lemma ge_bool : forall n ty l r, n = NBoolC ty l r -> (forall x, size x < size n -> GA x) -> GE n.
Proof.
  intros n ty l r -> IH W. rewrite wf_boolc in W. bools.
  destruct (bool_texts _ ty l r IH) as ((s & A & B) & C); auto; try (apply children_size; child). split.
  - exists s. split; [|split]; auto. { eapply T_eq; [exact B|fin]. } apply ends_hi; cbn; auto; lia.
  - intros _. destruct C as (t & C1 & C2). exists t. split; auto. eapply T_eq; [exact C2|fin].
Qed.
Lemma g_clause : forall n x, (forall y, size y < size n -> GA y) -> size x < size n -> wf Ex x = true -> lvl x <= 4 -> clausable x = true ->
  (exists s, render Clause x = Ok s /\ TB s (ct x)) /\ (exists s, render When x = Ok s /\ TB s (ct x) /\ lastb s = true /\ s <> []).
Proof.
  intros n x IH S W L C. destruct (g_ex _ IH x S W) as (s & A & B & _). destruct (is_paren x) eqn:P.
  - destruct x; try discriminate P. clear P. rewrite wf_paren in W. rewrite !render_NParen in *. cbn zeta in *.
    assert (IH' : forall y, size y < size (NParen args) -> GA y) by (intros; apply IH; lia).
    destruct (g_paren_args _ args IH') as (ss & E & F); [intros y Y; child|auto|]. rewrite E in *. cbn [rbind] in *. injection A as A. subst s.
    set (full := "(" ++ join ", " ss ++ ")") in *.
    assert (Q : forall t ts, T t ts -> TB (" " ++ t) ts /\ TB (" " ++ t ++ " ") ts /\ lastb (" " ++ t ++ " ") = true).
    { intros t ts X. repeat split; try (tk; nrm; reflexivity). rewrite app_assoc. apply lastb_snoc. reflexivity. }
    destruct (has_nl full) eqn:N.
    + unfold clausable in C. apply orb_true_iff in C as [C|C].
      * destruct args as [|a [|? ?]]; try discriminate C. cbn [forallb] in W. bools.
        destruct (g_arg _ IH' a Tr) as (t & E1 & X); [apply children_size; child|auto|auto|]. rewrite E1. cbn [rbind].
        unfold clause_paren, when_paren. rewrite N. split.
        -- eexists. split; [reflexivity|]. split; [|reflexivity]. tk. fin.
        -- eexists. split; [reflexivity|]. split; [split; [|reflexivity]|]. { tk. fin. }
           replace (" (" ++ nl ++ "  " ++ indent2 t ++ nl ++ " )" ++ nl ++ " ") with ((" (" ++ nl ++ "  " ++ indent2 t ++ nl ++ " )" ++ nl) ++ [32%N]) by (rewrite <- !app_assoc; auto).
           split; [apply lastb_snoc; reflexivity|discriminate].
      * exfalso. assert (Z : forallb (fun s => negb (has 10 s)) ss = true).
        { clear - C E W. revert ss E. induction args as [|a l I]; intros ss E; [cbn in E; injection E as <-; auto|]. cbn [forallb] in C, W.
          apply andb_true_iff in C as [C1 C2]. apply andb_true_iff in W as [W1 W2]. specialize (I W2 C2). revert E.
          destruct a; try discriminate C1. cbn [rmap]. rewrite render_NColumn. cbn [rbind finish is_select].
          destruct (rmap _ l); [|discriminate]. cbn [rbind]. intros E. injection E as <-. cbn [forallb]. rewrite (I _ eq_refl), andb_true_r.
          apply negb_true_iff. apply has_false. intros X. unfold argok in W1. cbn [is_sel wf lvl] in W1. rewrite andb_true_r in W1. apply orb_true_iff in W1 as [V|V].
          - rewrite <- ident_column in V. apply ident_word in V. unfold word in V. apply andb_true_iff in V as [_ V]. rewrite forallb_forall in V. apply V in X. discriminate X.
          - bools. subst. destruct X as [X|[]]. discriminate X. }
        unfold has_nl, full in N. assert (J : has 10 (join ", " ss) = false).
        { clear - Z. induction ss as [|s l I]; auto. change (negb (has 10 s) && forallb (fun s => negb (has 10 s)) l = true) in Z. apply andb_true_iff in Z as [Z1 Z2]. apply negb_true_iff in Z1.
          specialize (I Z2). destruct l as [|s' l]; [exact Z1|]. change (join ", " (s :: s' :: l)) with (s ++ ", " ++ join ", " (s' :: l)). rewrite !has_app, Z1, I. reflexivity. }
        rewrite !has_app, J in N. discriminate N.
    + cbn [rbind]. unfold clause_paren, when_paren. rewrite N. destruct (Q full _ B) as (Q1 & Q2 & Q3). split; eexists; split; eauto. repeat split; try apply Q2; auto. discriminate.
  - assert (X : forall m, m = Clause \/ m = When -> render m x = Ok (finish m s)).
    { intros m M. destruct (regular x) eqn:G.
      - rewrite render_regular by auto. rewrite A. auto.
      - destruct x; try discriminate G; try discriminate W; try discriminate P; cbn [lvl] in L; try lia.
        rewrite render_boolc by (destruct M; subst; discriminate). rewrite A. auto. }
    split.
    + eexists. split; [apply X; auto|]. split; [apply (T_finish Clause); auto|apply clause_hd].
    + eexists. split; [apply X; auto|]. split; [split; [apply (T_finish When); auto|apply when_hd]|split; [apply when_last|]]. cbn [finish]. unfold when_text. destruct (has_nl s); discriminate.
Qed.
