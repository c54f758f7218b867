(** Nested queries of the fragment stand on lines of their own, indented once per nesting. *)
From Verif Require Import PyStr Lib AstLib Ast Parser Api Grammar GramTok GramExpr Render RenderEq LexText GramUp GramAlike GramText GramRender GramFrom GramPrint SpecLayout ProofLayout.
Local Open Scope str_scope.
Local Open Scope list_scope.

Lemma Ok_inj : forall {A} (a b : A), Ok a = Ok b -> a = b.
Proof. intros A a b H. injection H as H. exact H. Qed.
Ltac okinj H := apply Ok_inj in H; rewrite <- H in *; clear H.
Definition unnestf (n : node) : bool := match n with NFun name l => str_eqb name "unnest" && forallb argok l | _ => false end.
Definition ok (m : mode) (n : node) : bool :=
  match m with
  | Tr => wf Ex n || wf St n || wf Fr n || unnestok n || unnestf n || itemok n
  | NL => wf Ex n && paren1 n
  | Clause | When => condok n
  | Top | From | JoinSide | Side _ => wf Fr n || wf St n
  | Sub | Str => false
  end.
Lemma ok_ex : forall n, wf Ex n = true -> ok Tr n = true.
Proof. intros n H. cbn [ok]. rewrite H. auto. Qed.
Lemma ok_st : forall n, wf St n = true -> ok Tr n = true.
Proof. intros n H. cbn [ok]. rewrite H, orb_true_r. auto. Qed.
Lemma ok_fr : forall n, wf Fr n = true -> ok Tr n = true.
Proof. intros n H. cbn [ok]. rewrite H, orb_true_r. auto. Qed.
Lemma ok_item : forall n, itemok n = true -> ok Tr n = true.
Proof. intros n H. cbn [ok]. rewrite H, orb_true_r. auto. Qed.
Lemma ok_arg : forall n, argok n = true -> ok Tr n = true.
Proof. intros n H. unfold argok in H. destruct (is_sel n); bools; auto using ok_st, ok_ex. Qed.

Lemma is_select_sel : forall n, is_select n = is_sel n.
Proof. reflexivity. Qed.
Lemma sub_tr : forall n, is_select n = false -> render Sub n = render Tr n.
Proof.
  intros n H. destruct (regular n) eqn:G; [rewrite (render_regular n Sub) by auto; destruct (render Tr n); auto|].
  destruct n; try discriminate G; try discriminate H.
  - rewrite !render_NWith. reflexivity.
  - rewrite !render_NParen. reflexivity.
  - rewrite !render_NAlias. reflexivity.
  - rewrite render_boolc by discriminate. destruct (render Tr _); auto.
Qed.
Lemma select_text : forall n, is_select n = true -> wf St n = true -> exists u, render Tr n = Ok u /\ render Sub n = Ok (" " ++ indent u)
  /\ render JoinSide n = Ok (" " ++ indent u) /\ (forall k, render (Side k) n = Ok (side_wrap k true (" " ++ indent u))).
Proof.
  intros n S W. destruct (good_all n) as (_ & G & _). destruct (G W Tr) as (u & U & _); [discriminate|]. exists u. split; auto. clear G.
  destruct n; try discriminate S. rewrite wf_select in W. apply andb_true_iff in W as [_ W]. destruct semi; [discriminate W|]. clear W. revert U. rewrite !render_NSelect.
  assert (X : forall k, render (Side k) (NSelect exprs sel_all sel_distinct distinct_on from_ where_ group having order limit offset false) = (t <- render Tr (NSelect exprs sel_all sel_distinct distinct_on from_ where_ group having order limit offset false) ;; Ok (side_wrap k true (" " ++ indent t)))).
  { intros k. rewrite !render_NSelect. cbv zeta.
    repeat match goal with |- rbind ?a _ = rbind (rbind ?a _) _ => destruct a; [cbn [rbind]|reflexivity] end. rewrite app_nil_r. reflexivity. }
  intros U. assert (U' : render Tr (NSelect exprs sel_all sel_distinct distinct_on from_ where_ group having order limit offset false) = Ok u) by (rewrite render_NSelect; exact U).
  split; [|split; [|intros k; rewrite X, U'; reflexivity]]; revert U; clear; cbv zeta;
    repeat match goal with |- rbind ?a _ = _ -> rbind ?a _ = _ => destruct a; [cbn [rbind]|discriminate] end; rewrite app_nil_r; intros U; okinj U; reflexivity.
Qed.
Lemma own_sub : forall a u b, own 1 u (a ++ nl ++ " " ++ indent u ++ nl ++ b).
Proof. intros a u b. exists a, b. rewrite indent_ind. reflexivity. Qed.
Lemma own_l : forall k u a b, own k u a -> own k u (a ++ b).
Proof. intros k u a b (x & y & ->). exists x, (y ++ b). rewrite <- !app_assoc. auto. Qed.
Lemma own_r : forall k u a b, own k u b -> own k u (a ++ b).
Proof. intros k u a b (x & y & ->). exists (a ++ x), y. rewrite <- !app_assoc. auto. Qed.
Lemma own_chunk0 : forall k u t, own k u t -> chunk k u t.
Proof. intros k u t (a & b & ->). apply chunk_r, chunk_r, chunk_r, chunk_l. exists [], []. rewrite app_nil_r. auto. Qed.
Lemma own_join : forall k u x sep l, In x l -> own k u x -> own k u (join sep l).
Proof.
  intros k u x sep l I W. induction l as [|y l IH]; [destruct I|]. destruct l as [|z l].
  - destruct I as [->|[]]. exact W.
  - change (own k u (y ++ sep ++ join sep (z :: l))). destruct I as [->|I]; [apply own_l; auto|]. apply own_r, own_r; auto.
Qed.
Lemma rmap_in : forall {A B} (f : A -> R B) l ss x, rmap f l = Ok ss -> In x l -> exists s, f x = Ok s /\ In s ss.
Proof.
  intros A B f l ss x H I. apply rmap_Ok in H. induction H as [|y s l ss H F IH]; [destruct I|]. destruct I as [->|I]; [exists s; split; auto; left; auto|].
  destruct IH as (s' & E & J); auto. exists s'. split; auto. right. auto.
Qed.
Ltac inv H := let x := fresh "t" in let E := fresh "E" in
  match type of H with rbind ?a _ = Ok _ => destruct a as [x|] eqn:E; [cbn [rbind] in H|discriminate H] end.

(** ** A query in parentheses *)
Lemma own_side : forall k u, exists j, 1 <= j /\ own j u (side_wrap (S k) true (" " ++ indent u)).
Proof. intros k u. exists 1. split; auto. unfold side_wrap. apply own_r. rewrite <- !app_assoc. exact (own_sub [] u (repeat_s (S k) 41)). Qed.
Lemma one_arg : forall m args c, ok m (NParen args) = true -> In c args -> is_select c = true -> m <> Tr -> m <> NL -> args = [c].
Proof.
  intros m args c O I S N1 N2.
  assert (A : forall f, args = [f] -> args = [c]) by (intros f ->; destruct I as [->|[]]; auto).
  assert (B : condok (NParen args) = true -> args = [c]).
  { intros C. unfold condok in C. apply andb_true_iff in C as [_ C]. unfold clausable in C. apply orb_true_iff in C as [C|C].
    - destruct args as [|f [|? ?]]; try discriminate C. eauto.
    - rewrite forallb_forall in C. specialize (C c I). destruct c; discriminate. }
  assert (F : wf Fr (NParen args) || wf St (NParen args) = true -> args = [c]).
  { intros C. apply orb_true_iff in C as [C|C]; [|discriminate C]. destruct args as [|f [|? ?]]; try discriminate C. eauto. }
  destruct m; cbn [ok] in O; try discriminate O; auto; congruence.
Qed.
Lemma paren_own : forall m args c t, ok m (NParen args) = true -> render m (NParen args) = Ok t -> In c args -> is_select c = true ->
  exists u, render Tr c = Ok u /\ ok Tr c = true /\ (m <> NL \/ has_nl u = true -> exists k, 1 <= k /\ own k u t).
Proof.
  intros m args c t O E I S.
  assert (W : wf St c = true).
  { assert (P : wf Ex (NParen args) = true \/ wf Fr (NParen args) = true).
    { destruct m; cbn [ok] in O; try discriminate O; unfold condok in O; bools; auto;
      repeat (apply orb_true_iff in O; destruct O as [O|O]); auto; discriminate O. }
    destruct P as [P|P].
    - rewrite wf_paren in P. rewrite forallb_forall in P. specialize (P c I). unfold argok in P. change (is_sel c) with (is_select c) in P. rewrite S in P. bools. auto.
    - destruct args as [|f [|? ?]]; try discriminate P. destruct I as [->|[]]. change ((if is_sel c || is_wth c then wf St c else wf Fr c) = true) in P. change (is_sel c) with (is_select c) in P. rewrite S in P. auto. }
  destruct (select_text c S W) as (u & U & V & VJ & VS). exists u. split; auto. split; [apply ok_st; auto|]. intros NN.
  assert (FULL : forall s, (l <- rmap (fun a => t <- render Sub a ;; Ok (if is_select a then nl ++ t ++ nl else t)) args ;; Ok ("(" ++ join ", " l ++ ")")) = Ok s -> own 1 u s).
  { intros s H. inv H. okinj H. destruct (rmap_in _ _ _ c E0 I) as (x & X & J). rewrite V in X. cbn [rbind] in X. rewrite S in X. okinj X.
    apply own_r, own_l. eapply own_join; [exact J|]. exact (own_sub [] u []). }
  rewrite render_NParen in E. cbv zeta in E.
  assert (ONE := fun N1 N2 => one_arg m args c O I S N1 N2).
  destruct m; try discriminate O.
  - exists 1. split; [auto|]. apply FULL. exact E.
  - cbn [ok] in O. bools. destruct args as [|f [|? ?]]; try discriminate. destruct I as [->|[]]. rewrite U in E. cbn [rbind] in E. destruct NN as [NN|NN]; [congruence|]. rewrite NN in E. okinj E.
    exists 1. split; auto. apply own_r. exact (own_sub [] u ")").
  - rewrite (ONE ltac:(discriminate) ltac:(discriminate)) in *. inv E. assert (OW := FULL _ eq_refl). rewrite (own_nl _ _ _ OW), U in E. cbn [rbind] in E. okinj E. unfold clause_paren. rewrite (own_nl _ _ _ OW).
    exists 1. split; auto. apply own_r. exact (own_sub [] u ")").
  - rewrite (ONE ltac:(discriminate) ltac:(discriminate)) in *. inv E. assert (OW := FULL _ eq_refl). rewrite (own_nl _ _ _ OW), U in E. cbn [rbind] in E. okinj E. unfold when_paren. rewrite (own_nl _ _ _ OW).
    exists 2. split; auto. apply own_r. exists [], (" )" ++ nl ++ " "). rewrite indent2_ind. reflexivity.
  - rewrite (ONE ltac:(discriminate) ltac:(discriminate)) in *. rewrite V, S in E. cbn [rbind] in E. okinj E.
    exists 1. split; auto. apply own_r. exact (own_sub [] u ")").
  - rewrite (ONE ltac:(discriminate) ltac:(discriminate)) in *. rewrite V, S in E. cbn [rbind] in E. okinj E.
    exists 1. split; auto. apply own_r. exact (own_sub [] u ")").
  - rewrite (ONE ltac:(discriminate) ltac:(discriminate)) in *. rewrite VS in E. okinj E. apply own_side.
  - rewrite (ONE ltac:(discriminate) ltac:(discriminate)) in *. rewrite VS in E. okinj E. apply own_side.
Qed.
Lemma with_own : forall m name qs s c t, ok m (NWith qs s) = true -> render m (NWith qs s) = Ok t -> In (name, c) qs -> is_select c = true ->
  exists u, render Tr c = Ok u /\ ok Tr c = true /\ (exists k, 1 <= k /\ own k u t).
Proof.
  intros m name qs s c t O E I S.
  assert (P : wf St (NWith qs s) = true).
  { clear E. destruct m; cbn [ok] in O; try discriminate O; unfold condok in O; bools; try discriminate;
      repeat (apply orb_true_iff in O; destruct O as [O|O]); auto; discriminate O. }
  rewrite wf_with in P. bools. match goal with H : forallb wqok qs = true |- _ => rewrite forallb_forall in H; specialize (H _ I); unfold wqok in H; cbn [fst snd] in H end. bools.
  destruct (select_text c S ltac:(auto)) as (u & U & V & _). exists u. split; auto. split; [apply ok_st; auto|].
  assert (Z : exists ts z, render Tr s = Ok z /\ rmap (fun q : str * node => if is_with (snd q) then Err TypeError
                           else t <- render Sub (snd q) ;; Ok (fst q ++ " AS (" ++ nl ++ t ++ nl ++ ")")) qs = Ok ts /\ t = finish m ("WITH " ++ join ("," ++ nl) ts ++ nl ++ z)).
  { rewrite render_NWith in E. destruct m; try discriminate E; inv E; inv E; okinj E; eauto. }
  destruct Z as (ts & z & Z1 & Z2 & ->). destruct (rmap_in _ _ _ _ Z2 I) as (x & X & J). cbn [fst snd] in X. destruct (is_with c); [discriminate X|]. rewrite V in X. cbn [rbind] in X. okinj X.
  assert (OW : own 1 u ("WITH " ++ join ("," ++ nl) ts ++ nl ++ z)).
  { apply own_r, own_l. eapply own_join; [exact J|]. apply own_r, own_r. exact (own_sub [] u ")"). }
  destruct (within_finish m ("WITH " ++ join ("," ++ nl) ts ++ nl ++ z)) as (j & C). exists (j + 1). split; [lia|]. eapply own_chunk; eauto.
Qed.

(** ** Any part *)
Ltac ck := first
  [ assumption | apply within_refl
  | apply within_indent; ck | apply within_indent2; ck
  | apply within_l; ck | apply within_r; ck
  | eapply within_join_map; [eassumption|ck] | eapply within_join; [eassumption|ck] ].
Definition part (n c : node) (t : str) : Prop := exists m s, render m c = Ok s /\ ok m c = true /\ within s t /\ (m = NL -> is_boolc n = true).
Lemma part_tr : forall n c s t, render Tr c = Ok s -> ok Tr c = true -> within s t -> part n c t.
Proof. intros n c s t A B C. exists Tr, s. repeat split; auto. discriminate. Qed.
Lemma part_m : forall m n c s t, render m c = Ok s -> ok m c = true -> within s t -> m <> NL -> part n c t.
Proof. intros m n c s t A B C D. exists m, s. repeat split; auto; congruence. Qed.
Lemma part_list : forall n c l ss t, rmap (render Tr) l = Ok ss -> In c l -> ok Tr c = true -> (forall s, In s ss -> within s t) -> part n c t.
Proof. intros n c l ss t E I O W. destruct (rmap_in _ _ _ _ E I) as (s & A & B). eapply part_tr; eauto. Qed.
Lemma part_strs : forall n c l ss t, rmap (render Str) l = Ok ss -> In c l -> ok Tr c = true -> render Str c = render Tr c -> (forall s, In s ss -> within s t) -> part n c t.
Proof. intros n c l ss t E I O X W. destruct (rmap_in _ _ _ _ E I) as (s & A & B). eapply part_tr; eauto. congruence. Qed.
Lemma item_str : forall i, itemok i = true -> render Str i = render Tr i.
Proof. intros i H. destruct i; try discriminate H. rewrite (render_regular _ Str) by reflexivity. destruct (render Tr _); auto. Qed.
Lemma items_in : forall l c, itemsok l = true -> In c l -> itemok c = true.
Proof. intros l c H I. unfold itemsok in H. apply andb_true_iff in H as [_ H]. rewrite forallb_forall in H. auto. Qed.
Lemma upto_in : forall k l c, forallb (upto k) l = true -> In c l -> wf Ex c = true /\ lvl c <= k.
Proof. intros k l c H I. rewrite forallb_forall in H. apply upto_and; auto. Qed.
Lemma arg_in : forall l c, forallb argok l = true -> In c l -> ok Tr c = true.
Proof. intros l c H I. rewrite forallb_forall in H. apply ok_arg; auto. Qed.
Lemma within_call : forall name ss s, In s ss -> within s (call_text name ss).
Proof. intros name ss s I. unfold call_text. destruct (_ || _); ck. Qed.
Lemma within_order : forall b ss t s, order_text b ss = Ok t -> In s ss -> within s t.
Proof.
  intros b ss t s E I. unfold order_text in E. destruct ss as [|x [|y l]]; [discriminate E| |].
  - destruct I as [->|[]]. okinj E. ck.
  - okinj E. destruct b; [apply within_indent, within_r|apply within_r]; eapply within_join; eauto; ck.
Qed.
Lemma within_all : forall e kw ss t, select_all_text e kw ss = Ok t -> within e t /\ forall s, In s ss -> within s t.
Proof.
  intros e kw ss t E. unfold select_all_text in E. destruct ss as [|x [|y l]]; [discriminate E| |]; okinj E.
  - split; [ck|]. intros s [->|[]]. ck.
  - split; [ck|]. intros s I. apply within_r, within_r, within_r, within_r, within_r, within_r, within_l. eapply within_join; eauto. ck.
Qed.
Lemma between_wf : forall ty a b, str_eqb ty "and" && wf Ex a && (lvl a <=? 2) && paren1 a && wf Ex b && (lvl b <=? 2) && paren1 b = true -> wf Ex (NBoolC ty a b) = true.
Proof.
  intros ty a b H. rewrite wf_boolc. bools. subst. assert (A : (lvl a <=? 3) = true) by (apply Nat.leb_le; lia). assert (B : (lvl b <=? 4) = true) by (apply Nat.leb_le; lia).
  rewrite A, B. repeat match goal with H : _ = true |- _ => rewrite H; clear H end. reflexivity.
Qed.
Lemma cond_wf : forall e p r, wf Ex (NCond e p r) = true -> wf Ex r = true.
Proof.
  intros e p r W. rewrite wf_cond in W. apply andb_true_iff in W as [_ W]. destruct (str_eqb (lower p) "between"); [|bools; auto].
  destruct r; try discriminate W. apply between_wf. auto.
Qed.
Ltac prt := cbn [finish]; first [eapply part_tr; [eassumption|solve [auto using ok_ex, ok_st, ok_fr]|ck]].
Ltac prts := cbn [finish]; eapply part_list; [eassumption|eassumption|eauto using arg_in|intros; first [apply within_call; assumption | ck]].
Lemma fin_tr : forall a, (t <- a ;; Ok (finish Tr t)) = a.
Proof. intros [a|e]; auto. Qed.
Lemma step_ex : forall n t c, regular n = true -> wf Ex n = true -> render Tr n = Ok t -> In c (children n) -> part n c t.
Proof.
  intros n t c G W E I. destruct n; try discriminate G; try discriminate W; cbn [children] in I; try (destruct I; fail).
  - rewrite wf_fun in W. bools. rewrite render_NFun, fin_tr in E. inv E. okinj E. prts.
  - rewrite wf_cast in W. bools. rewrite render_NCast, fin_tr in E. inv E. okinj E. destruct I as [<-|[]]. prt.
  - rewrite wf_count in W. bools. rewrite render_NCount, fin_tr in E. inv E. okinj E. prts.
  - rewrite wf_arrayagg in W. bools. rewrite render_NArrayAgg, fin_tr in E. inv E. inv E. okinj E. destruct I as [<-|I]; [prt|].
    destruct order as [os|]; [|destruct I]. cbn [ollist oall] in *. inv E1. inv E1. okinj E1.
    eapply part_strs; [eassumption|eassumption|eauto using ok_item, items_in|eauto using item_str, items_in|]. intros s J. assert (X := within_order _ _ _ _ E2 J). cbn [finish]. ck.
  - rewrite wf_filtered in W. bools. rewrite render_NFiltered, fin_tr in E. inv E. inv E. okinj E. destruct I as [<-|[<-|[]]]; prt.
  - rewrite wf_analytics in W. bools. rewrite render_NAnalytics, fin_tr in E. inv E. inv E. inv E. okinj E.
    assert (X : within (t0 ++ " OVER (" ++ t1 ++ t2) (match frame with Some (rr, fr) => (t0 ++ " OVER (" ++ t1 ++ t2) ++ (if has_nl (t0 ++ " OVER (" ++ t1 ++ t2) then nl ++ " " else "") ++ upper rr ++ " " ++ upper fr | None => t0 ++ " OVER (" ++ t1 ++ t2 end)) by (destruct frame as [[? ?]|]; ck).
    assert (Y : forall s, within s (t0 ++ " OVER (" ++ t1 ++ t2) -> within s ((match frame with Some (rr, fr) => (t0 ++ " OVER (" ++ t1 ++ t2) ++ (if has_nl (t0 ++ " OVER (" ++ t1 ++ t2) then nl ++ " " else "") ++ upper rr ++ " " ++ upper fr | None => t0 ++ " OVER (" ++ t1 ++ t2 end) ++ if has_nl (match frame with Some (rr, fr) => (t0 ++ " OVER (" ++ t1 ++ t2) ++ (if has_nl (t0 ++ " OVER (" ++ t1 ++ t2) then nl ++ " " else "") ++ upper rr ++ " " ++ upper fr | None => t0 ++ " OVER (" ++ t1 ++ t2 end) then nl ++ ")" else ")")).
    { intros s S. cbn [finish]. apply within_l. eapply within_trans; eauto. }
    destruct I as [<-|I]; [eapply part_tr; [eassumption|auto using ok_ex|apply Y; ck]|]. apply in_app_or in I as [I|I].
    + destruct partition as [[|x l]|]; [destruct I| |destruct I]. cbn [ollist oall] in *; bools. inv E1. okinj E1.
      match goal with V : rmap (render Tr) (x :: l) = Ok ?z |- _ => rename V into EE; rename z into t3 end.
      eapply part_list; [exact EE|exact I|eapply ok_ex, upto_in; [eassumption|exact I]|]. intros s J. apply Y. apply within_r, within_r, within_l. destruct t3 as [|a [|b t3]]; [destruct J|destruct J as [->|[]]; ck|]. apply within_r, within_r, within_r, within_r. eapply within_join; eauto; ck.
    + destruct order as [os|]; [|destruct I]. cbn [ollist oall] in *. inv E2. inv E2. okinj E2.
      eapply part_strs; [eassumption|eassumption|eauto using ok_item, items_in|eauto using item_str, items_in|]. intros s J. assert (Z := within_order _ _ _ _ ltac:(eassumption) J). apply Y. ck.
  - rewrite wf_chained in W. bools. rewrite render_NChained, fin_tr in E. inv E. inv E. okinj E. destruct I as [<-|[<-|[]]]; prt.
  - rewrite wf_datepart in W. bools. rewrite render_NDatePart, fin_tr in E. inv E. okinj E. destruct I as [<-|[]]. prt.
  - rewrite wf_array in W. bools. rewrite render_NArray, fin_tr in E. inv E. okinj E. prts.
  - rewrite wf_index in W. bools. rewrite render_NIndex, fin_tr in E. inv E. inv E. okinj E. destruct I as [<-|I]; [prt|prts].
  - rewrite wf_arith in W. bools. rewrite render_NArith, fin_tr, !render_str in E by (auto; lia). inv E. inv E. okinj E. destruct I as [<-|[<-|[]]]; prt.
  - rewrite wf_bitwise in W. bools. rewrite render_NBitwise, fin_tr in E. inv E. inv E. okinj E. destruct I as [<-|[<-|[]]]; prt.
  - assert (W2 := cond_wf _ _ _ W). rewrite wf_cond in W. apply andb_true_iff in W as [W _]. bools. rewrite render_NCond, fin_tr in E. inv E. inv E. okinj E. destruct I as [<-|[<-|[]]]; [prt|].
    prt.
  - rewrite wf_neg in W. bools. rewrite render_NNeg, fin_tr in E. inv E. okinj E. destruct I as [<-|[]]. prt.
  - rewrite wf_except in W. bools. rewrite render_NExcept, fin_tr in E. inv E. inv E. destruct (within_all _ _ _ _ E). destruct I as [<-|I]; [prt|]. eapply part_list; [eassumption|eassumption|eauto using arg_in|]. auto.
  - rewrite wf_replace in W. bools. rewrite render_NReplace, fin_tr in E. inv E. inv E. destruct (within_all _ _ _ _ E). destruct I as [<-|I]; [prt|]. eapply part_list; [eassumption|eassumption|eauto using arg_in|]. auto.
  - rewrite wf_case in W. bools. rewrite render_NCase, fin_tr in E. inv E. inv E. inv E. okinj E.
    apply in_app_or in I as [I|I]; [|apply in_app_or in I as [I|I]; [|apply in_app_or in I as [I|I]]].
    + destruct e as [x|]; [|destruct I]. destruct I as [<-|[]]. cbn [oall] in *. bools. inv E0. okinj E0. prt.
    + apply in_map_iff in I as (q & <- & I). match goal with H : forallb wtok _ = true |- _ => rewrite forallb_forall in H; specialize (H q I); unfold wtok in H end. bools.
      destruct (rmap_in _ _ _ _ E1 I) as (s & X & J). inv X. inv X. okinj X. eapply (part_m When); [eassumption|cbn [ok]; unfold condok; rewrite (proj2 (Nat.leb_le _ _)) by eassumption; repeat match goal with H : _ = true |- _ => rewrite H; clear H end; auto| |discriminate].
      cbn [finish]. apply within_r, within_r, within_r, within_r, within_l. eapply within_join; [exact J|]. ck.
    + apply in_map_iff in I as (q & <- & I). match goal with H : forallb wtok _ = true |- _ => rewrite forallb_forall in H; specialize (H q I); unfold wtok in H end. bools.
      destruct (rmap_in _ _ _ _ E1 I) as (s & X & J). inv X. rewrite render_str in X by auto. inv X. okinj X. eapply part_tr; [eassumption|auto using ok_ex|].
      cbn [finish]. apply within_r, within_r, within_r, within_r, within_l. eapply within_join; [exact J|]. ck.
    + destruct els as [x|]; [|destruct I]. destruct I as [<-|[]]. cbn [oall] in *. bools. inv E2. okinj E2. prt.
Qed.
Lemma part_within : forall n c t t', part n c t -> within t t' -> part n c t'.
Proof. intros n c t t' (m & s & A & B & C & D) W. exists m, s. repeat split; auto. eapply within_trans; eauto. Qed.
Lemma ok_wf : forall m n, regular n = true -> m <> Tr -> ok m n = true -> wf Ex n = true \/ wf Fr n = true.
Proof.
  intros m n G N O. destruct m; cbn [ok] in O; try discriminate O; try congruence; unfold condok in O; bools; auto;
  (apply orb_true_iff in O as [O|O]; auto; destruct n; try discriminate O; discriminate G).
Qed.
Lemma step_fr : forall n t c, regular n = true -> wf Fr n = true -> render Tr n = Ok t -> In c (children n) -> part n c t.
Proof.
  intros n t c G W E I. destruct n; try discriminate G; try discriminate W; cbn [children] in I.
  - rewrite wf_table in W. rewrite render_NTable, fin_tr in E. inv E. okinj E. destruct I as [<-|[]].
    assert (wf Ex n = true) by (destruct brackets; [|unfold tableok in W]; bools; auto). destruct brackets; prt.
  - rewrite wf_unnest in W. rewrite render_NUnnest, fin_tr in E. inv E. okinj E. destruct I as [<-|[]]. apply andb_true_iff in W as [W _]. apply andb_true_iff in W as [W _].
    eapply part_tr; [eassumption|cbn [ok]; rewrite W, !orb_true_r; auto|]. destruct with_offset; ck.
  - rewrite wf_join in W. bools. rewrite render_NJoin, fin_tr in E. inv E. inv E. inv E. okinj E.
    destruct I as [<-|[<-|I]].
    + eapply (part_m JoinSide); [eassumption|cbn [ok]; apply orb_true_iff; auto|ck|discriminate].
    + eapply (part_m JoinSide); [eassumption|cbn [ok]; apply orb_true_iff; auto|ck|discriminate].
    + match goal with H : joinok _ _ _ _ = true |- _ => rename H into J end. unfold joinok in J.
      destruct on_ as [x|]; [destruct using_; [destruct (mem _ _); bools; discriminate|]|destruct using_ as [x|]; [|destruct I]].
      * assert (condok x = true) by (destruct (mem _ _); [discriminate J|bools; auto]). destruct I as [<-|[]]. inv E2. okinj E2. eapply (part_m Clause); [eassumption|auto|ck|discriminate].
      * assert (condok x = true) by (destruct (mem _ _); [discriminate J|bools; auto]). destruct I as [<-|[]]. inv E2. okinj E2. eapply (part_m Clause); [eassumption|auto|ck|discriminate].
  - rewrite wf_combined in W. rewrite render_NCombined, fin_tr in E. inv E. inv E. okinj E. bools. destruct I as [<-|[<-|[]]]; [prt|].
    assert (ok Tr n2 = true) by (destruct (is_sel n2); bools; auto using ok_st, ok_fr). eapply part_tr; [eassumption|auto|ck].
Qed.
Lemma step_regular : forall n m t c, regular n = true -> ok m n = true -> render m n = Ok t -> In c (children n) -> part n c t.
Proof.
  intros n m t c G O E I. rewrite render_regular in E by auto. inv E. okinj E. rename E0 into E. eapply part_within; [|apply within_finish].
  assert (K : wf Ex n = true \/ wf Fr n = true \/ unnestf n = true \/ itemok n = true).
  { destruct m; try (edestruct ok_wf as [X|X]; [exact G| |exact O|left; exact X|right; left; exact X]; discriminate). cbn [ok] in O.
    apply orb_true_iff in O as [O|O]; auto. apply orb_true_iff in O as [O|O]; auto. apply orb_true_iff in O as [O|O].
    - apply orb_true_iff in O as [O|O]; auto. apply orb_true_iff in O as [O|O]; auto. destruct n; try discriminate O; discriminate G.
    - destruct n; try discriminate O; try discriminate G. unfold unnestok in O. auto. }
  destruct K as [K|[K|[K|K]]]; eauto using step_ex, step_fr.
  - destruct n; try discriminate K. cbn [unnestf] in K. bools. rewrite render_NFun, fin_tr in E. inv E. okinj E. cbn [children] in I. prts.
  - destruct n; try discriminate K. cbn [itemok] in K. bools. rewrite render_NOrderItem, fin_tr in E. rewrite render_str in E by auto. inv E. okinj E. destruct I as [<-|[]]. prt.
Qed.
Lemma ok_fm : forall x, wf Fr x = true -> forall m, fm m = true -> m <> Sub -> ok m x = true.
Proof. intros x H m F N. destruct m; try discriminate F; try congruence; cbn [ok]; rewrite H, ?orb_true_r; auto. Qed.
Lemma ok_sm : forall x, wf St x = true -> forall m, fm m = true -> m <> Sub -> ok m x = true.
Proof. intros x H m F N. destruct m; try discriminate F; try congruence; cbn [ok]; rewrite H, ?orb_true_r; auto. Qed.
Lemma step_bool : forall m ty l r t c, ok m (NBoolC ty l r) = true -> render m (NBoolC ty l r) = Ok t -> In c [l; r] -> part (NBoolC ty l r) c t.
Proof.
  intros m ty l r t c O E I.
  assert (W : wf Ex (NBoolC ty l r) = true).
  { clear E. destruct m; cbn [ok] in O; try discriminate O; unfold condok in O; try (repeat (apply orb_true_iff in O; destruct O as [O|O]); auto; discriminate O); apply andb_true_iff in O as [O _]; auto; apply andb_true_iff in O as [O _]; auto. }
  rewrite wf_boolc in W. bools.
  assert (X : forall b s, (t <- (if b : bool then Ok s else nl_ <- render NL l ;; nr <- render NL r ;; Ok (nl_ ++ nl ++ upper ty ++ " " ++ nr)) ;; Ok (finish m t)) = Ok t ->
     (exists tl tr, render Tr l = Ok tl /\ render Tr r = Ok tr /\ s = tl ++ " " ++ upper ty ++ " " ++ tr) -> part (NBoolC ty l r) c t).
  { intros b s H' (tl & tr & A & B & ->). inv H'. okinj H'. eapply part_within; [|apply within_finish]. destruct b.
    - okinj E0. destruct I as [<-|[<-|[]]]; prt.
    - inv E0. inv E0. okinj E0. destruct I as [<-|[<-|[]]].
      + exists NL, t1. repeat split; auto; [|ck]. cbn [ok]. apply andb_true_iff. auto.
      + exists NL, t2. repeat split; auto; [|ck]. cbn [ok]. apply andb_true_iff. auto. }
  rewrite render_NBoolC in E. destruct m; try discriminate O; inv E; inv E; (eapply X; [exact E|eauto]).
Qed.
Lemma mode_NL : forall m, m = NL \/ m <> NL.
Proof. intros m. destruct m; auto; right; discriminate. Qed.
Lemma columns_line : forall args s, forallb argok args = true -> forallb is_column args = true -> render Tr (NParen args) = Ok s -> has_nl s = false.
Proof.
  intros args s W C E. rewrite render_NParen in E. cbv zeta in E. inv E. okinj E. rename t into ss. rename E0 into E.
  assert (Z : forallb (fun s => negb (has 10 s)) ss = true).
  { clear - C E W. revert ss E. induction args as [|a l I]; intros ss E; [cbn in E; injection E as <-; auto|]. cbn [forallb] in C, W.
    apply andb_true_iff in C as [C1 C2]. apply andb_true_iff in W as [W1 W2]. specialize (I W2 C2). revert E.
    destruct a; try discriminate C1. cbn [rmap]. rewrite render_NColumn. cbn [rbind finish is_select].
    destruct (rmap _ l); [|discriminate]. cbn [rbind]. intros E. injection E as <-. cbn [forallb]. rewrite (I _ eq_refl), andb_true_r.
    apply negb_true_iff. apply has_false. intros X. unfold argok in W1. cbn [is_sel wf lvl] in W1. rewrite andb_true_r in W1. apply orb_true_iff in W1 as [V|V].
    - rewrite <- ident_column in V. apply ident_word in V. unfold word in V. apply andb_true_iff in V as [_ V]. rewrite forallb_forall in V. apply V in X. discriminate X.
    - bools. subst. destruct X as [X|[]]. discriminate X. }
  assert (J : has 10 (join ", " ss) = false).
  { clear - Z. induction ss as [|s l I]; auto. change (negb (has 10 s) && forallb (fun s => negb (has 10 s)) l = true) in Z. apply andb_true_iff in Z as [Z1 Z2]. apply negb_true_iff in Z1.
    specialize (I Z2). destruct l as [|s' l]; [exact Z1|]. change (join ", " (s :: s' :: l)) with (s ++ ", " ++ join ", " (s' :: l)). rewrite !has_app, Z1, I. reflexivity. }
  unfold has_nl. rewrite !has_app, J. reflexivity.
Qed.
Lemma step_paren : forall m args t c, ok m (NParen args) = true -> render m (NParen args) = Ok t -> In c args -> part (NParen args) c t.
Proof.
  intros m args t c O E I. destruct (is_select c) eqn:S.
  { assert (O' := O). assert (E' := E). destruct (paren_own _ _ _ _ O E I S) as (u & U & K & X). destruct (has_nl u) eqn:N.
    - destruct X as (k & _ & OW); auto. eapply part_tr; eauto. exists k. apply own_chunk0; auto.
    - destruct (mode_NL m) as [->|M].
      + cbn [ok] in O. apply andb_true_iff in O as [_ O]. destruct args as [|f [|? ?]]; try discriminate O. destruct I as [->|[]]. rewrite render_NParen in E. cbv zeta in E. rewrite U in E. cbn [rbind] in E. rewrite N in E. okinj E. prt.
      + destruct X as (k & _ & OW); auto. eapply part_tr; eauto. exists k. apply own_chunk0; auto. }
  assert (P : wf Ex (NParen args) = true /\ forallb argok args = true \/ args = [c] /\ wf Fr (NParen args) = true).
  { clear E. assert (PE : wf Ex (NParen args) = true -> wf Ex (NParen args) = true /\ forallb argok args = true) by (intros H; split; auto; rewrite wf_paren in H; auto).
    assert (PF : wf Fr (NParen args) = true -> args = [c] /\ wf Fr (NParen args) = true) by (intros H; split; auto; destruct args as [|f [|? ?]]; try discriminate H; destruct I as [->|[]]; auto).
    destruct m; cbn [ok] in O; try discriminate O; unfold condok in O;
    try (repeat (apply orb_true_iff in O; destruct O as [O|O]); auto; discriminate O); left; apply PE; apply andb_true_iff in O as [O _]; auto; apply andb_true_iff in O as [O _]; auto. }
  assert (FULL : forall s, (l <- rmap (fun a => t <- render Sub a ;; Ok (if is_select a then nl ++ t ++ nl else t)) args ;; Ok ("(" ++ join ", " l ++ ")")) = Ok s -> exists x, render Tr c = Ok x /\ within x s).
  { intros s H. inv H. okinj H. destruct (rmap_in _ _ _ c E0 I) as (x & X & J). rewrite S, sub_tr in X by auto. inv X. okinj X. eexists. split; [reflexivity|]. apply within_r, within_l. eapply within_join; eauto. ck. }
  assert (OC : ok Tr c = true).
  { destruct P as [[_ P]|[-> P]]; [eapply arg_in; eauto|]. change ((if is_sel c || is_wth c then wf St c else wf Fr c) = true) in P. destruct (_ || _); auto using ok_st, ok_fr. }
  assert (CL : condok (NParen args) = true -> forall s, render Tr (NParen args) = Ok s -> has_nl s = true -> args = [c]).
  { intros C s Q N. unfold condok in C. bools. match goal with H : clausable _ = true |- _ => rename H into C end. unfold clausable in C. apply orb_true_iff in C as [C|C].
    - destruct args as [|f [|? ?]]; try discriminate C. destruct I as [->|[]]. auto.
    - exfalso. destruct P as [[_ P]|[_ P]]; [|destruct args as [|f [|? ?]]; try discriminate P; destruct I as [->|[]]; destruct c; try discriminate C; discriminate P]. rewrite (columns_line args s P C Q) in N. discriminate N. }
  rewrite render_NParen in E. cbv zeta in E.
  destruct m; try discriminate O.
  - destruct (FULL _ E) as (x & X & Y). eapply part_tr; eauto.
  - cbn [ok] in O. apply andb_true_iff in O as [_ O]. destruct args as [|f [|? ?]]; try discriminate O. destruct I as [->|[]]. inv E. okinj E. destruct (has_nl t0); prt.
  - cbn [ok] in O. inv E. destruct (FULL _ eq_refl) as (x & X & Y). unfold clause_paren in E. destruct (has_nl t0) eqn:N.
    + rewrite (CL O t0) in E; auto. inv E. okinj E. prt.
    + okinj E. eapply part_tr; eauto. apply within_r. auto.
  - cbn [ok] in O. inv E. destruct (FULL _ eq_refl) as (x & X & Y). unfold when_paren in E. destruct (has_nl t0) eqn:N.
    + rewrite (CL O t0) in E; auto. inv E. okinj E. prt.
    + okinj E. eapply part_tr; eauto. apply within_r, within_l. auto.
  - assert (A : args = [c]) by (cbn [ok] in O; apply orb_true_iff in O as [O|O]; [|discriminate O]; destruct args as [|f [|? ?]]; try discriminate O; destruct I as [->|[]]; auto).
    rewrite A, sub_tr, S in E by auto. inv E. okinj E. prt.
  - assert (A : args = [c]) by (cbn [ok] in O; apply orb_true_iff in O as [O|O]; [|discriminate O]; destruct args as [|f [|? ?]]; try discriminate O; destruct I as [->|[]]; auto).
    rewrite A, sub_tr, S in E by auto. inv E. okinj E. prt.
  - assert (A : wf Fr (NParen args) = true) by (cbn [ok] in O; apply orb_true_iff in O as [O|O]; [auto|discriminate O]).
    destruct args as [|f [|? ?]]; try discriminate A. destruct I as [->|[]]. change ((if is_sel c || is_wth c then wf St c else wf Fr c) = true) in A.
    eapply (part_m (Side 1)); [exact E| |ck|discriminate]. cbn [ok]. destruct (_ || _); rewrite A, ?orb_true_r; auto.
  - assert (A : wf Fr (NParen args) = true) by (cbn [ok] in O; apply orb_true_iff in O as [O|O]; [auto|discriminate O]).
    destruct args as [|f [|? ?]]; try discriminate A. destruct I as [->|[]]. change ((if is_sel c || is_wth c then wf St c else wf Fr c) = true) in A.
    eapply (part_m (Side (Datatypes.S k))); [exact E| |ck|discriminate]. cbn [ok]. destruct (_ || _); rewrite A, ?orb_true_r; auto.
Qed.
Lemma step_alias : forall m e a w t c, ok m (NAlias e a w) = true -> render m (NAlias e a w) = Ok t -> In c (children (NAlias e a w)) -> part (NAlias e a w) c t.
Proof.
  intros m e a w t c O E I.
  assert (A : forall x, a = inr x -> ok Tr x = true /\ (fm m = true -> m <> Tr -> render Str x = render Tr x)).
  { intros x ->. clear E.
    assert (W : wf Ex x = true /\ (is_str x = true \/ m = Tr \/ m = NL \/ m = Clause \/ m = When)).
    { assert (L : alsok (inr x) = true -> wf Ex x = true /\ (is_str x = true \/ m = Tr \/ m = NL \/ m = Clause \/ m = When)) by (unfold alsok; intros; bools; auto).
      assert (X : wf Ex (NAlias e (inr x) w) = true -> wf Ex x = true) by (rewrite wf_alias; intros; bools; unfold aliasok in *; destruct w; bools; auto).
      assert (F : wf Fr (NAlias e (inr x) w) = true -> alsok (inr x) = true) by (rewrite wf_falias; intros; bools; auto).
      assert (U : unnestok (NAlias e (inr x) w) = true -> alsok (inr x) = true) by (unfold unnestok; destruct e; try discriminate; intros; bools; auto).
      destruct m; cbn [ok] in O; try discriminate O.
      - repeat (apply orb_true_iff in O; destruct O as [O|O]); auto; discriminate O.
      - bools. auto.
      - unfold condok in O. bools. auto 10.
      - unfold condok in O. bools. auto 10.
      - apply orb_true_iff in O as [O|O]; [auto|discriminate O].
      - apply orb_true_iff in O as [O|O]; [auto|discriminate O].
      - apply orb_true_iff in O as [O|O]; [auto|discriminate O].
      - apply orb_true_iff in O as [O|O]; [auto|discriminate O]. }
    destruct W as [W1 W2]. split; [apply ok_ex; auto|]. intros M1 M2. destruct W2 as [W2|[->|[->|[->| ->]]]]; try discriminate M1; try congruence.
    apply render_str; auto. destruct x; try discriminate W2. auto. }
  assert (B : ok Tr e = true).
  { clear - O. assert (X : wf Ex (NAlias e a w) = true -> ok Tr e = true) by (rewrite wf_alias; intros; bools; auto using ok_ex).
    assert (F : wf Fr (NAlias e a w) = true -> ok Tr e = true) by (rewrite wf_falias; intros; bools; auto using ok_fr).
    assert (U : unnestok (NAlias e a w) = true -> ok Tr e = true) by (unfold unnestok; destruct e; try discriminate; intros; apply andb_true_iff in H as [H _]; cbn [ok]; unfold unnestf; rewrite H, !orb_true_r; auto).
    destruct m; cbn [ok] in O; try discriminate O; unfold condok in O;
    try (repeat (apply orb_true_iff in O; destruct O as [O|O]); auto; discriminate O); apply X; apply andb_true_iff in O as [O _]; auto; apply andb_true_iff in O as [O _]; auto. }
  assert (D : fm m = true -> m <> Tr -> wf Fr e = true).
  { intros M1 M2. clear - O M1 M2. destruct m; try discriminate M1; try congruence; cbn [ok] in O; try discriminate O; (apply orb_true_iff in O as [O|O]; [|discriminate O]); rewrite wf_falias in O; bools; auto. }
  rewrite render_NAlias in E. cbn [children] in I.
  assert (GEN : forall m', (t <- render Tr e ;; a <- match a with inl s => Ok s | inr x => render Tr x end ;; Ok (finish m' (t ++ (if w then " AS " else " ") ++ a))) = Ok t -> part (NAlias e a w) c t).
  { clear E. intros m' E. inv E. inv E. okinj E. eapply part_within; [|apply within_finish]. destruct I as [<-|I]; [prt|]. destruct a as [s|x]; [destruct I|]. destruct I as [<-|[]]. destruct (A x eq_refl) as [A1 _]. eapply part_tr; [eassumption|auto|ck]. }
  destruct m; try discriminate O; eauto.
  - inv E. inv E. okinj E. destruct I as [<-|I].
    + eapply (part_m From); [eassumption|apply ok_fm; auto; try discriminate; apply D; auto; discriminate|ck|discriminate].
    + destruct a as [s|x]; [destruct I|]. destruct I as [<-|[]]. destruct (A x eq_refl) as [A1 _]. eapply part_tr; [eassumption|auto|ck].
  - inv E. inv E. okinj E. destruct I as [<-|I].
    + eapply (part_m (Side 0)); [eassumption|apply ok_fm; auto; try discriminate; apply D; auto; discriminate|ck|discriminate].
    + destruct a as [s|x]; [destruct I|]. destruct I as [<-|[]]. destruct (A x eq_refl) as [A1 A2]. rewrite A2 in E1 by (auto; discriminate). eapply part_tr; [eassumption|auto|ck].
Qed.
Lemma sel_split : forall (a : list node) b c, In c (a ++ b) -> In c a \/ In c b.
Proof. intros. apply in_app_or. auto. Qed.
Lemma step_select : forall n t c, is_select n = true -> wf St n = true -> render Tr n = Ok t -> In c (children n) -> part n c t.
Proof.
  intros n t c S W E I. destruct n; try discriminate S. rewrite wf_select in W. bools. subst semi. clear S.
  rewrite render_NSelect in E. cbv zeta in E.
  inv E. inv E. inv E. inv E. inv E. inv E. inv E. inv E. inv E. rewrite app_nil_r in E. cbn [finish] in E. okinj E. cbn [children] in I.
  rename t0 into dt. rename t1 into es. rename t2 into ft. rename t3 into wt. rename t4 into gt. rename t5 into ht. rename t6 into ot. rename t7 into lt. rename t8 into oft.
  set (n := NSelect exprs sel_all sel_distinct distinct_on from_ where_ group having order limit offset false).
  set (e := match es with [e] => " " ++ e | _ => nl ++ " " ++ join ("," ++ nl ++ " ") (map indent es) end).
  assert (We : forall s, In s es -> within s e).
  { intros s J. unfold e. destruct es as [|x [|y l]]; [destruct J|destruct J as [->|[]]; ck|]. apply within_r, within_r. eapply within_join_map; [exact J|ck]. }
  clearbody e.
  apply sel_split in I as [I|I].
  { eapply part_list; [exact E1|exact I|eapply ok_ex, upto_in; eassumption|]. intros s J. specialize (We s J). ck. }
  apply sel_split in I as [I|I].
  { destruct distinct_on as [l|]; [|destruct I]. cbn [ollist donok] in *. bools. subst sel_distinct. destruct sel_all; [discriminate|]. destruct l as [|x l]; [destruct I|]. inv E0. okinj E0.
    match goal with V : forallb (upto 3) (x :: l) = true |- _ => destruct (upto_in _ _ _ V I) end.
    match goal with V : rmap (render Str) (x :: l) = Ok _ |- _ => eapply part_strs; [exact V|exact I|auto using ok_ex|apply render_str; auto|intros s J; ck] end. }
  apply sel_split in I as [I|I].
  { destruct from_ as [f|]; [|destruct I]. destruct I as [<-|[]]. cbn [oall] in *. inv E2. okinj E2. eapply (part_m Top); [eassumption|apply ok_fm; auto; discriminate|ck|discriminate]. }
  apply sel_split in I as [I|I].
  { destruct where_ as [f|]; [|destruct I]. destruct I as [<-|[]]. cbn [oall] in *. inv E3. okinj E3. eapply (part_m Clause); [eassumption|auto|ck|discriminate]. }
  apply sel_split in I as [I|I].
  { destruct group as [[[args rollup] each]|]; [|destruct I]. cbn [groupok] in *. bools. inv E4. okinj E4. match goal with V : forallb (upto 3) args = true |- _ => destruct (upto_in _ _ _ V I) end.
    rename E into EG. destruct args as [|x [|y l]]; [destruct I| |].
    - destruct I as [<-|[]]. inv EG. okinj EG. prt.
    - inv EG. okinj EG. eapply part_strs; [eassumption|exact I|auto using ok_ex|apply render_str; auto|intros s J]. apply within_r, within_r, within_r, within_r, within_r, within_l. do 5 apply within_r. apply within_indent, within_r. eapply within_join; eauto. ck. }
  apply sel_split in I as [I|I].
  { destruct having as [f|]; [|destruct I]. destruct I as [<-|[]]. cbn [oall] in *. inv E5. okinj E5. eapply (part_m Clause); [eassumption|auto|ck|discriminate]. }
  apply sel_split in I as [I|I].
  { destruct order as [l|]; [|destruct I]. cbn [ollist oall] in *. inv E6. inv E6. okinj E6.
    eapply part_strs; [eassumption|exact I|eauto using ok_item, items_in|eauto using item_str, items_in|]. intros s J. assert (X := within_order _ _ _ _ ltac:(eassumption) J). ck. }
  apply sel_split in I as [I|I].
  { destruct limit as [[[|] [x|]]|]; try destruct I as [<-|[]]; try destruct I; cbn [limitok] in *; try discriminate. bools. rewrite render_str in E7 by auto. inv E7. okinj E7. prt. }
  destruct offset as [x|]; [|destruct I]. destruct I as [<-|[]]. cbn [oall] in *. bools. rewrite render_str in E8 by auto. inv E8. okinj E8. prt.
Qed.
Lemma step_with : forall qs s m t c, ok m (NWith qs s) = true -> render m (NWith qs s) = Ok t -> In c (children (NWith qs s)) -> part (NWith qs s) c t.
Proof.
  intros qs s m t c O E I. cbn [children] in I. apply in_app_or in I as [I|I].
  - assert (P : wf St (NWith qs s) = true).
    { clear E. destruct m; cbn [ok] in O; try discriminate O; unfold condok in O; bools; try discriminate;
        repeat (apply orb_true_iff in O; destruct O as [O|O]); auto; discriminate O. }
    apply in_map_iff in I as ((name & q) & <- & I). rewrite wf_with in P. bools.
    match goal with V : forallb wqok qs = true |- _ => rewrite forallb_forall in V; specialize (V _ I); unfold wqok in V; cbn [fst snd] in V end. bools. cbn [snd].
    destruct (with_own m name qs s q t O E I) as (u & U & K & k & _ & OW); auto. eapply part_tr; eauto. exists k. apply own_chunk0. auto.
  - destruct I as [<-|[]].
    assert (P : wf St (NWith qs s) = true).
    { clear E. destruct m; cbn [ok] in O; try discriminate O; unfold condok in O; bools; try discriminate;
        repeat (apply orb_true_iff in O; destruct O as [O|O]); auto; discriminate O. }
    rewrite wf_with in P. bools. rewrite render_NWith in E. destruct m; try discriminate O; inv E; inv E; okinj E; (eapply part_within; [|apply within_finish]); prt.
Qed.
Lemma step : forall n m t c, ok m n = true -> render m n = Ok t -> In c (children n) -> part n c t.
Proof.
  intros n m t c O E I. destruct (regular n) eqn:G; [eapply step_regular; eauto|]. destruct n; try discriminate G.
  - set (n := NSelect _ _ _ _ _ _ _ _ _ _ _ _) in *.
    assert (W : wf St n = true /\ fm m = true /\ m <> Sub).
    { clear E I. destruct m; cbn [ok] in O; try discriminate O; unfold condok in O; bools; try discriminate; repeat (apply orb_true_iff in O; destruct O as [O|O]); try discriminate O; repeat split; auto; discriminate. }
    destruct W as (W & F & NS). destruct (select_text n eq_refl W) as (u & U & _ & V2 & V3). assert (P := step_select n u c eq_refl W U I).
    eapply part_within; [exact P|]. destruct m; try discriminate F; try congruence.
    + rewrite U in E. okinj E. ck.
    + assert (X : render Top n = render Tr n) by (unfold n; rewrite !render_NSelect; reflexivity). rewrite X, U in E. okinj E. ck.
    + assert (X : render From n = render Tr n) by (unfold n; rewrite !render_NSelect; reflexivity). rewrite X, U in E. okinj E. ck.
    + rewrite V2 in E. okinj E. ck.
    + rewrite V3 in E. okinj E. unfold side_wrap. destruct k; ck.
  - eapply step_with; eauto.
  - eapply step_paren; eauto.
  - eapply step_alias; eauto.
  - eapply step_bool; eauto.
Qed.

(** ** Nested queries *)
Lemma nested_own : forall m d n, nested m d n -> forall mm t, ok mm n = true -> render mm n = Ok t -> (mm = NL -> n = NParen [m] -> broken m) ->
  exists u k, render Tr m = Ok u /\ d <= k /\ own k u t.
Proof.
  intros m d n H. induction H as [args I S|name qs s I S|d c args I S H IH|d name c qs s I S H IH|d c n I H IH B]; intros mm t O E Q.
  - destruct (paren_own _ _ _ _ O E I S) as (u & U & _ & X). exists u. destruct X as (k & K & OW); [|eauto]. destruct (mode_NL mm) as [->|M]; auto. right.
    destruct (Q eq_refl) as (v & V & J); [cbn [ok] in O; apply andb_true_iff in O as [_ O]; destruct args as [|f [|? ?]]; try discriminate O; destruct I as [->|[]]; auto|].
    unfold transform in V. rewrite U in V. okinj V. apply has_In. auto.
  - destruct (with_own _ _ _ _ _ _ O E I S) as (u & U & _ & k & K & OW). eauto.
  - destruct (paren_own _ _ _ _ O E I S) as (u & U & OC & X). destruct (IH Tr u OC U) as (v & k & V & K & OW); [discriminate|].
    destruct X as (j & J & OJ); [right; eapply own_nl; eauto|]. exists v, (j + k). split; auto. split; [lia|]. eapply own_chunk; [exact OW|apply own_chunk0; auto].
  - destruct (with_own _ _ _ _ _ _ O E I S) as (u & U & OC & j & J & OJ). destruct (IH Tr u OC U) as (v & k & V & K & OW); [discriminate|].
    exists v, (j + k). split; auto. split; [lia|]. eapply own_chunk; [exact OW|apply own_chunk0; auto].
  - destruct (step n mm t c O E I) as (m' & s & X & OC & (j & W) & N). destruct (IH m' s OC X) as (v & k & V & K & OW).
    { intros M C. specialize (N M). destruct n; try discriminate N. auto. }
    exists v, (j + k). split; auto. split; [lia|]. eapply own_chunk; eauto.
Qed.
Lemma nested_select : forall m d n b, nested m d n -> is_select n = true -> nested m d (with_semi b n).
Proof. intros m d n b H S. inversion H; subst; try discriminate S. destruct n; try discriminate S. eapply nested_in; eauto. Qed.
Lemma nested_semi : forall m d n b, nested m d n -> nested m d (with_semi b n).
Proof.
  intros m d n b H. destruct (is_select n) eqn:S; [apply nested_select; auto|]. destruct n; auto; try discriminate S. destruct n; auto.
  set (s' := with_semi b (NSelect exprs sel_all sel_distinct distinct_on from_ where_ group having order limit offset semi)).
  change (nested m d (NWith queries s')). inversion H; subst; [eapply nested_with; eauto|eapply nested_in_with; eauto|].
  cbn [children] in *. match goal with I : In c (_ ++ _) |- _ => apply in_app_or in I as [I|I] end.
  - eapply nested_in with (c := c); eauto. cbn [children]. apply in_or_app. left. auto.
  - eapply nested_in with (c := s'); eauto; [cbn [children]; apply in_or_app; right; left; auto|].
    match goal with I : In c [_] |- _ => destruct I as [<-|[]] end. apply (nested_select _ _ _ b) in H1; auto.
Qed.
Lemma nested_lines : forall n m d, statement n = true -> nested m d n ->
  exists t u k, transform n = Ok t /\ transform m = Ok u /\ d <= k /\ block k u t.
Proof.
  intros n m d W H. apply (nested_semi _ _ _ false) in H. assert (SH := statement_shape n W). unfold statement in W.
  destruct (good_all (with_semi false n)) as (_ & G & _). destruct (G W Tr) as (s & R & _); [discriminate|].
  destruct (nested_own _ _ _ H Tr s (ok_st _ W) R) as (u & k & U & K & OW); [discriminate|].
  destruct (semi_cases n SH) as [E|E].
  - exists s, u, k. rewrite E. repeat split; auto. apply own_block. auto.
  - exists (s ++ ";"), u, k. rewrite E. unfold transform. rewrite render_semi, R by auto. repeat split; auto. apply own_block, own_l. auto.
Qed.
Lemma nested_query : forall q n m d, parse_sql q = Ok n -> statement n = true -> nested m d n ->
  exists t u k, format_sql q = Ok t /\ transform m = Ok u /\ d <= k /\ block k u t.
Proof. intros q n m d P W H. destruct (nested_lines n m d W H) as (t & u & k & A & B). exists t, u, k. unfold format_sql. rewrite P. auto. Qed.
