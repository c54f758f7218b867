(** FROM items and statements of the fragment print into texts of their tokens. *)
From Verif Require Import PyStr PyFloat Lib Digits AstLib Ast Tokeniser SpecTok ProofTok ProofTok2 ProofTok3 Grammar Scan GramTok GramExpr Render RenderEq LexText GramUp GramAlike GramText GramRender GramExp2.
Local Open Scope str_scope.
Local Open Scope list_scope.

Lemma fm_str : forall m, fm m = true -> m <> Str.
Proof. intros m F ->. discriminate F. Qed.
Lemma canon_kws : forall s, map canon (kws s) = split 32 (upper s).
Proof. intros s. unfold kws. rewrite map_map. rewrite <- (upper_lower s), split_upper. reflexivity. Qed.
Lemma T_words : forall s l, forallb (fun w => mem w l) (split 32 (lower s)) = true -> forallb word l = true -> T (upper s) (split 32 (upper s)).
Proof.
  intros s l H W. apply T_kws. rewrite <- (upper_lower s), split_upper. rewrite forallb_forall in H, W. apply forallb_forall. intros w I. apply in_map_iff in I as (v & <- & I).
  rewrite word_upper. apply W. apply mem_In. apply H. auto.
Qed.
Lemma T_wrap0 : forall s ts, T s (wrapm (Side 0) ts) -> T s ts.
Proof. intros s ts H. cbn [wrapm repeat app] in H. rewrite app_nil_r in H. auto. Qed.
Section F.
Variable n : node.
Hypothesis IH : forall x, size x < size n -> GA x.
Lemma f_fr : forall x m, size x < size n -> wf Fr x = true -> fm m = true -> Good m x (wrapm m (ct x)).
Proof. intros x m S W F. destruct (IH x S) as (_ & _ & A). apply A; auto. Qed.
Lemma f_st : forall x m, size x < size n -> wf St x = true -> m <> Str -> Good m x (wrapm m (ct x)).
Proof. intros x m S W F. destruct (IH x S) as (_ & A & _). apply A; auto. Qed.
Lemma f_in : forall x m, size x < size n -> (if is_sel x || is_wth x then wf St x else wf Fr x) = true -> fm m = true -> Good m x (wrapm m (ct x)).
Proof. intros x m S W F. destruct (_ || _); [apply f_st; auto using fm_str|apply f_fr; auto]. Qed.
Lemma f_als : forall a m, alsok a = true -> m = Tr \/ m = Str ->
  exists t, match a with inl s => Ok s | inr x => render m x end = Ok t /\ T t (map canon (match (match a with inl t => inl t | inr x => inr (up x) end) with inl t => [Id t] | inr x => toks x end)).
Proof.
  intros a m A M. unfold alsok in A. destruct a as [t|x]; [exists t; split; auto; apply T_ident; auto|]. bools. destruct x; try discriminate.
  match goal with V : wf Ex _ = true |- _ => cbn [wf] in V end. destruct prefix; try discriminate. bools. rewrite render_NString. exists (quotes ++ v ++ quotes). split; [destruct M; subst; reflexivity|].
  eapply T_eq; [apply T_lit; auto|]. cbn [up toks]. destruct v; reflexivity.
Qed.
Lemma f_cond : forall x, In x (children n) -> condok x = true -> exists s, render Clause x = Ok s /\ TB s (ct x).
Proof. intros x S W. unfold condok in W. bools. apply (g_clause _ x IH); auto. apply children_size; auto. Qed.
End F.
Lemma gf_paren : forall n f, n = NParen [f] -> (forall x, size x < size n -> GA x) -> GF n.
Proof.
  intros n f -> IH W m M. assert (SZ : size f < size (NParen [f])) by (apply children_size; left; auto). change ((if is_sel f || is_wth f then wf St f else wf Fr f) = true) in W.
  assert (G := fun m => f_in _ IH f m SZ W).
  assert (Z : ct (NParen [f]) = "(" :: ct f ++ [")"]) by (unfold ct; cbn [up toks]; unfold parens; cbn [map commas canon]; rewrite map_app; reflexivity).
  rewrite Z. unfold Good. rewrite render_NParen. cbn zeta. cbn [rmap].
  assert (FULL : exists s, (l <- (x <- (t <- render Sub f ;; Ok (if is_select f then nl ++ t ++ nl else t)) ;; y <- Ok [] ;; Ok (x :: y)) ;; Ok ("(" ++ join ", " l ++ ")")) = Ok s /\ T s ("(" :: ct f ++ [")"])).
  { destruct (G Sub eq_refl) as (t & -> & X). cbn [rbind join wrapm] in *. eexists. split; [reflexivity|]. destruct (is_select f); (tk; nrm; reflexivity). }
  assert (TOP : exists s, (t <- render Sub f ;; Ok ("(" ++ nl ++ (if is_select f then t else " " ++ indent t) ++ nl ++ ")")) = Ok s /\ T s ("(" :: ct f ++ [")"])).
  { destruct (G Sub eq_refl) as (t & -> & X). cbn [rbind wrapm] in *. eexists. split; [reflexivity|]. destruct (is_select f); (tk; nrm; reflexivity). }
  assert (SIDE : forall k, Good (Side (S k)) f (wrapm (Side k) ("(" :: ct f ++ [")"]))).
  { intros k. destruct (G (Side (S k)) eq_refl) as (t & E & X). exists t. split; auto. eapply T_eq; [exact X|]. cbn [wrapm]. rewrite !repeat_snoc. nrm.
    rewrite (repeat_comm ")" k []). rewrite app_nil_r. reflexivity. }
  destruct m; try discriminate M; cbn [wrapm]; auto.
  - destruct (SIDE 0) as (t & E & X). exists t. split; auto. apply T_wrap0. auto.
  - apply SIDE.
Qed.
Lemma gf_alias : forall n e a w, n = NAlias e a w -> (forall x, size x < size n -> GA x) -> GF n.
Proof.
  intros n e a w -> IH W m M. rewrite wf_falias in W. bools. assert (S : size e < size (NAlias e a w)) by (apply children_size; left; auto).
  assert (G := fun m => f_fr _ IH e m S ltac:(auto)).
  destruct (f_als a Tr) as (u & A1 & A2); auto. destruct (f_als a Str) as (v & B1 & B2); auto.
  assert (P : forall t x, T t (ct e) -> T x (map canon (match (match a with inl t => inl t | inr x => inr (up x) end) with inl t => [Id t] | inr x => toks x end)) ->
    T (t ++ (if w then " AS " else " ") ++ x) (ct (NAlias e a w)) /\ T (t ++ (if w then " AS" else "") ++ " " ++ x) (ct (NAlias e a w))).
  { intros t x X Y. destruct w; split; (tk; fin). }
  destruct (G Tr eq_refl) as (t & E & X). cbn [wrapm] in X. destruct (G From eq_refl) as (t1 & E1 & X1). cbn [wrapm] in X1. destruct (G (Side 0) eq_refl) as (t2 & E2 & X2). apply T_wrap0 in X2.
  unfold Good. rewrite render_NAlias. destruct m; try discriminate M; rewrite ?E, ?E1, ?E2; cbn [rbind]; rewrite ?A1, ?B1; cbn [rbind]; eexists; (split; [reflexivity|]).
  - apply (T_finish Tr). apply P; auto.
  - apply (T_finish Sub). apply P; auto.
  - apply P; auto.
  - apply (T_finish From). apply P; auto.
  - apply P; auto.
  - apply (T_finish (Side k)). apply P; auto.
Qed.
Lemma gf_unnest : forall n e wo was al, n = NUnnest e wo was al -> (forall x, size x < size n -> GA x) -> wf Fr n = true -> Good Tr n (ct n).
Proof.
  intros n e wo was al -> IH W. rewrite wf_unnest in W. bools. match goal with V : unnestok e = true |- _ => rename V into U end.
  assert (UN : exists t, render Tr e = Ok t /\ T t (map canon (match up e with
    | NFun _ args => Kw "unnest" :: parens (commas (map toks args))
    | NAlias (NFun _ args) a w =>
      Kw "unnest" :: parens (commas (map toks args))
      ++ (if w then [Kw "as"] else []) ++ match a with inl t => [Id t] | inr x => toks x end
    | _ => toks (up e)
    end))).
  { assert (C : forall l, (forall x, In x l -> size x < size (NUnnest e wo was al)) -> forallb argok l = true -> exists t, render Tr (NFun "unnest" l) = Ok t /\ T t ("UNNEST" :: "(" :: joint_toks [","] (map ct l) ++ [")"])).
    { intros l SL A. destruct (g_argsz _ IH l Tr SL A) as (ss & E & F); auto. rewrite render_NFun, E. cbn [rbind finish]. eexists. split; [reflexivity|]. apply T_call; auto. }
    assert (S0 : size e < size (NUnnest e wo was al)) by (apply children_size; left; auto).
    unfold unnestok in U. destruct e; try discriminate U.
    - bools. subst. destruct (C args) as (t & E & X); auto.
      { intros x X. eapply Nat.lt_trans; [|exact S0]. apply children_size. exact X. }
      exists t. split; auto. eapply T_eq; [exact X|]. cbn [up]. fin.
    - destruct e; try discriminate U. bools. subst. destruct (C args) as (t & E & X); auto.
      { intros x X. eapply Nat.lt_trans; [|exact S0]. eapply Nat.lt_trans; [apply (children_size (NFun "unnest" args)); exact X|]. apply children_size. left; auto. }
      destruct (f_als alias Tr) as (u & A1 & A2); auto. rewrite render_NAlias, E. cbn [rbind]. rewrite A1. cbn [rbind finish]. eexists. split; [reflexivity|].
      destruct with_as; (tk; cbn [up]; fin). }
  destruct UN as (t & E & X). unfold Good. rewrite render_NUnnest, E. cbn [rbind finish]. eexists. split; [reflexivity|].
  assert (Z : ct (NUnnest e wo was al) = map canon (match up e with
    | NFun _ args => Kw "unnest" :: parens (commas (map toks args))
    | NAlias (NFun _ args) a w =>
      Kw "unnest" :: parens (commas (map toks args))
      ++ (if w then [Kw "as"] else []) ++ match a with inl t => [Id t] | inr x => toks x end
    | _ => toks (up e)
    end) ++ map canon (if wo then Kw "with" :: Kw "offset"
          :: match al with Some a => (if was then [Kw "as"] else []) ++ [Id a] | None => [] end
        else [])).
  { unfold ct. cbn [up toks]. rewrite map_app. f_equal. unfold unnestok in U. destruct e; try discriminate U; auto. destruct e; try discriminate U; auto. }
  rewrite Z. destruct wo; [|rewrite app_nil_r; auto]. destruct al as [a|].
  - bools. assert (I : T a [a]) by (apply T_ident; auto). destruct a as [|c a]; [unfold ident, word in *; bools; discriminate|]. destruct was; (tk; nrm; reflexivity).
  - bools. subst. tk. reflexivity.
Qed.
Lemma gf_join : forall n ty l r on_ using_, n = NJoin ty l r on_ using_ -> (forall x, size x < size n -> GA x) -> wf Fr n = true -> Good Tr n (ct n).
Proof.
  intros n ty l r on_ using_ -> IH W. rewrite wf_join in W. bools.
  destruct (f_fr _ IH r JoinSide) as (tr & R1 & R2); auto; [apply children_size; child|]. destruct (f_fr _ IH l JoinSide) as (tl & L1 & L2); auto; [apply children_size; child|]. cbn [wrapm] in *.
  unfold Good. rewrite render_NJoin, R1, L1. cbn [rbind]. match goal with V : joinok _ _ _ _ = true |- _ => rename V into J end. unfold joinok in J.
  assert (TY : exists g gt, (if str_eqb ty "," then "," else nl ++ upper ty) = g /\ T g gt /\ hdb g = true /\ map canon (if str_eqb ty "," then [Id ","] else kws ty) = gt).
  { destruct (str_eqb ty ",") eqn:C; [exists ",", [","]; repeat split; auto; fixed|]. eexists. eexists. split; [reflexivity|]. rewrite canon_kws. split; [|split; [reflexivity|reflexivity]].
    assert (X : T (upper ty) (split 32 (upper ty))).
    { destruct (mem ty ["CROSS JOIN"; ","]) eqn:Q; [apply mem_In in Q; destruct Q as [<-|[<-|[]]]; [fixed|discriminate C]|]. bools. unfold join_words in *. bools. eapply T_words; [eassumption|reflexivity]. }
    tk. reflexivity. }
  destruct TY as (g & gt & -> & G1 & G2 & G3).
  assert (CC : exists c, match on_ with
            | Some x => t <- render Clause x ;; Ok (nl ++ "ON" ++ t)
            | None => match using_ with
                      | Some x => t <- render Clause x ;; Ok (nl ++ "USING" ++ t)
                      | None => Ok "" end
            end = Ok c /\ TB c (map canon (match option_map up on_ with Some c => Kw "on" :: toks c | None => [] end ++ match option_map up using_ with Some c => Kw "using" :: toks c | None => [] end))).
  { destruct on_ as [c|]; [destruct using_; [destruct (mem _ _); bools; discriminate|]|destruct using_ as [c|]]; [| |exists []; split; auto using TB_nil].
    - assert (condok c = true) by (destruct (mem ty _); [discriminate J|bools; auto]). destruct (f_cond _ IH c) as (s & E & X & Y); [child|auto|]. rewrite E. eexists. split; [reflexivity|]. split; [|reflexivity].
      eapply T_eq; [eapply T_app; [fixed|eapply T_app; [fixed|exact X|apply joint_r; auto]|jn]|]. cbn [option_map]. rewrite app_nil_r. reflexivity.
    - assert (condok c = true) by (destruct (mem ty _); [discriminate J|bools; auto]). destruct (f_cond _ IH c) as (s & E & X & Y); [child|auto|]. rewrite E. eexists. split; [reflexivity|]. split; [|reflexivity].
      eapply T_eq; [eapply T_app; [fixed|eapply T_app; [fixed|exact X|apply joint_r; auto]|jn]|]. reflexivity. }
  destruct CC as (c & -> & C1 & C2). cbn [rbind finish]. eexists. split; [reflexivity|].
  tk; [apply joint_r; auto|apply joint_r; apply hdb_app; auto|]. subst gt. unfold ct. cbn [up toks]. rewrite !map_app. reflexivity.
Qed.
Lemma gf_comb : forall n op l r, n = NCombined op l r -> (forall x, size x < size n -> GA x) -> wf Fr n = true -> Good Tr n (ct n).
Proof.
  intros n op l r -> IH W. rewrite wf_combined in W. bools.
  destruct (f_fr _ IH l Tr) as (tl & L1 & L2); auto; [apply children_size; child|]. cbn [wrapm] in *.
  assert (RR : Good Tr r (ct r)).
  { destruct (is_sel r); bools; [apply (f_st _ IH r Tr)|apply (f_fr _ IH r Tr)]; auto; try (apply children_size; child). discriminate. }
  destruct RR as (tr & R1 & R2). unfold Good. rewrite render_NCombined, L1, R1. cbn [rbind finish]. eexists. split; [reflexivity|].
  assert (X : T (upper op) (split 32 (upper op))) by (unfold set_words in *; bools; eapply T_words; [eassumption|reflexivity]).
  unfold ct. cbn [up toks]. rewrite !map_app, canon_kws. destruct (is_table r); (tk; nrm; reflexivity).
Qed.
Lemma gf_all : forall n, (forall x, size x < size n -> GA x) -> GF n.
Proof.
  intros n IH. destruct (is_paren n) eqn:P.
  { destruct n; try discriminate P. intros W. destruct args as [|f [|? ?]]; try discriminate W. eapply gf_paren; eauto. }
  destruct (regular n) eqn:Q; [|destruct n; try discriminate Q; try discriminate P; try (intros W; discriminate W); eapply gf_alias; eauto].
  intros W m _. apply regular_good; auto. destruct n; try discriminate W; try discriminate P; try discriminate Q.
  - rewrite wf_table in W. assert (WV : wf Ex n = true) by (destruct brackets; [|unfold tableok in W]; bools; auto). kid IH n s E X D. unfold Good. rewrite render_NTable, E. cbn [rbind finish]. eexists. split; [reflexivity|].
    destruct brackets; [|exact X]. tk. fin.
  - eapply gf_unnest; eauto.
  - eapply gf_join; eauto.
  - eapply gf_comb; eauto.
Qed.
