(** The parser inverts [toks] on the grammar fragment: what follows the head of an expression. *)
From Verif Require Import PyStr Lib Digits AstLib PyFloat Tokeniser Ast Parser Api ProofTerm ProofFuel Ideal Grammar Scan GramTok GramExpr GramHead.
Local Open Scope str_scope.
Local Open Scope list_scope.

(** ** OVER *)
Definition frame_toks (fr : option (str * str)) : list tok :=
  match fr with Some (rr, f) => Id rr :: map Id (split 32 f) | None => [] end.
Lemma word_tokok : forall w, word w = true -> ~ In (lower w) ["case"; "end"; "with"; "timestamp_trunc"] -> plain w.
Proof.
  intros w H N. split; auto. intros X. cbn in X. repeat (destruct X as [<-|X]; [discriminate H|]). destruct X.
Qed.
Lemma frame_ok : forall fr s, oall frameok fr = true -> spelling (frame_toks fr) s ->
  bl true [] s /\ nf ["partition"; "order"] s /\ stopped ["rows"; "range"] s /\
  match hd_error s with
  | Some rr => if mem (lower rr) ["rows"; "range"] then '(et, _, _) <- until_one_of None [] None [] (tl s) ;; Ok (Some (rr, join " " et)) else Ok None
  | None => Ok None
  end = Ok fr.
Proof.
  intros fr s H S. destruct fr as [[rr f]|]; cbn [frame_toks] in S; [|sp; repeat split; try apply bl_nil; cbn; auto].
  cbn [oall] in H. unfold frameok in H. cbn [fst snd] in H. bools. sp.
  assert (E : x = split 32 f).
  { revert S. generalize (split 32 f). intros l. revert x. induction l; intros x S; cbn [map] in S; sp; auto. f_equal; auto. }
  subst x. assert (B : bl true [] (split 32 f)).
  { revert H0. generalize (split 32 f). intros l F. induction l as [|w l IHl]; [apply bl_nil|]. cbn [forallb] in F. bools.
    apply bl_tok; auto. apply word_tokok; auto. }
  assert (M : mem (lower rr) ["rows"; "range"] = true) by (apply mem_In; auto).
  repeat split.
  - apply bl_tok; auto. split.
    + destruct H as [H|[H|[]]]; symmetry in H; eapply word_plain; eauto; reflexivity.
    + destruct H as [H|[H|[]]]; rewrite <- H; apply mem_false; reflexivity.
  - cbn [nf]. destruct H as [H|[H|[]]]; rewrite <- H; apply mem_false; reflexivity.
  - exact H.
  - cbn [hd_error tl]. rewrite M. rewrite (uo0_end true [] (split 32 f)) by auto. cbn [rbind]. rewrite join_split. reflexivity.
Qed.
Lemma over_ok : forall f p o fr ss r, below (NAnalytics f p o fr) -> wf Ex (NAnalytics f p o fr) = true ->
  spelling (match p with Some l => Kw "partition" :: Kw "by" :: commas (map toks l) | None => [] end
    ++ match o with Some l => Kw "order" :: Kw "by" :: commas (map toks l) | None => [] end
    ++ match fr with Some (rr, f) => Id rr :: map Id (split 32 f) | None => [] end) ss ->
  forall t, lower t = "over" -> over_clause PI None f (Some t) ("(" :: ss ++ ")" :: r) = Ok (NAnalytics f p o fr, hd_error r, tl r).
Proof.
  intros f p o fr ss r IH H S t T. rewrite wf_analytics in H. bools.
  apply spelling_app in S as (s1 & s2 & -> & S1 & S). apply spelling_app in S as (s3 & s4 & -> & S3 & S).
  change (spelling (frame_toks fr) s4) in S. destruct (frame_ok fr s4 H0 S) as (B4 & N4 & T4 & X4).
  assert (A4 : forall k, In k ["partition"; "order"] -> olow_is (hd_error s4) k = false) by (intros k K; eapply nf_is; eauto).
  assert (BO : bl true [] s3 /\ olow_is (hd_error (s3 ++ s4)) "partition" = false /\ stopped ["order"; "rows"; "range"] (s3 ++ s4)).
  { destruct o as [l|]; sp.
    - cbn [oall] in H1. unfold itemsok in H1. bools. split; [|split].
      + do 2 (apply bl_tok; [split; [eapply word_plain; eauto|match goal with E : lower ?t = _ |- ~ In (lower ?t) _ => rewrite E end; apply mem_false; reflexivity]|auto|]).
        eapply bl_weak; [eapply items_bl; eauto|auto|intros ? []].
      + cbn [app hd_error]. erewrite olow_low by eauto. reflexivity.
      + cbn. auto.
    - split; [apply bl_nil|]. cbn [app]. split; [apply A4; cbn; auto|]. destruct s4; cbn in *; auto. }
  destruct BO as (BO & NO & TO).
  assert (BP : bl true [] s1).
  { destruct p as [l|]; sp; [|apply bl_nil]. cbn [oall] in H2. bools.
    do 2 (apply bl_tok; [split; [eapply word_plain; eauto|match goal with E : lower ?t = _ |- ~ In (lower ?t) _ => rewrite E end; apply mem_false; reflexivity]|auto|]).
    match goal with Q : spelling (commas _) ?u |- bl _ _ ?u => revert Q end. apply (blt_commas_in false STOPS).
    apply Forall_map, Forall_forall. rewrite forallb_forall in *. intros y Y u U. match goal with F : forall _, _ -> upto 4 _ = true |- _ => apply F in Y end. bools. apply (ex_bl4 y); auto. }
  set (L2 := s3 ++ s4) in *.
  assert (X2 : forall A (k : option (list node) * option str * list str -> R A),
    rbind (if olow_is (hd_error L2) "order" then
         '(ant, at_) <- next_opt None (tl L2) ;;
         if negb (truthy ant) || negb (olow_is ant "by")
         then Err (ParsingError "Missing BY after ORDER") else
         '(et, ant, at_) <- until_one_of None ["rows"; "range"] None [] at_ ;;
         items <- orderby PI et ;;
         Ok (Some items, ant, at_)
       else Ok (None, hd_error L2, tl L2)) k = k (o, hd_error s4, tl s4)).
  { intros A k. unfold L2. destruct o as [l|]; sp; cbn [app hd_error tl].
    - cbn [oall] in H1. erewrite olow_low by eauto. change (str_eqb "order" "order") with true. cbv iota. cbn [next_opt rbind].
      match goal with E : lower _ = "by" |- _ => rewrite (truthy_low _ _ E eq_refl), (olow_low _ _ _ E) end.
      change (negb true || negb (str_eqb "by" "by")) with false. cbv iota.
      match goal with Q : spelling (commas _) ?u |- _ => assert (BI : bl false ["rows"; "range"] u); [|rewrite (uo0 false ["rows"; "range"] u) by auto] end.
      { eapply bl_weak; [eapply items_bl; [|eauto]; unfold itemsok in H1; bools; auto|auto|inc]. }
      cbn [rbind]. rewrite (items_ok l) by (auto; apply (below_items _ l IH); intros z Z; right; apply in_or_app; right; auto). reflexivity.
    - rewrite A4 by (cbn; auto). reflexivity. }
  assert (X1 : forall A (k : option (list node) * option str * list str -> R A),
    rbind (if olow_is (hd_error (s1 ++ L2)) "partition" then
         '(ant, at_) <- next_opt None (tl (s1 ++ L2)) ;;
         if negb (truthy ant) || negb (olow_is ant "by")
         then Err (ParsingError "Missing BY after PARTITION") else
         '(et, ant, at_) <- until_one_of None ["order"; "rows"; "range"] None [] at_ ;;
         es <- exprlist PI false et ;;
         Ok (Some es, ant, at_)
       else Ok (None, hd_error (s1 ++ L2), tl (s1 ++ L2))) k = k (p, hd_error L2, tl L2)).
  { intros A k. destruct p as [l|]; sp; cbn [app hd_error tl].
    - cbn [oall] in H2. bools. erewrite olow_low by eauto. change (str_eqb "partition" "partition") with true. cbv iota. cbn [next_opt rbind].
      match goal with E : lower _ = "by" |- _ => rewrite (truthy_low _ _ E eq_refl), (olow_low _ _ _ E) end.
      change (negb true || negb (str_eqb "by" "by")) with false. cbv iota.
      match goal with Q : spelling (commas _) ?u |- _ => assert (BI : bl false ["order"; "rows"; "range"] u); [|rewrite (uo0 false ["order"; "rows"; "range"] u) by auto] end.
      { match goal with Q : spelling (commas _) ?u |- bl _ _ ?u => revert Q end. apply blt_commas; [apply mem_false; reflexivity|].
        apply Forall_map, Forall_forall. rewrite forallb_forall in *. intros y Y u U. match goal with F : forall _, _ -> upto 4 _ = true |- _ => apply F in Y end. bools.
        eapply bl_weak; [apply (ex_bl4 y); auto|auto|inc]. }
      cbn [rbind]. rewrite (args_ok l); auto; [apply (below_list _ l IH); intros z Z; right; apply in_or_app; left; auto|].
      apply forallb_forall. rewrite forallb_forall in *. intros y Y. match goal with F : forall _, _ -> upto 4 _ = true |- _ => apply F in Y end. bools.
      eapply (upto_arg y 4); auto; lia.
    - rewrite NO. reflexivity. }
  unfold over_clause. rewrite (olow_low _ _ _ T). change (str_eqb "over" "over") with true. cbv iota. cbn [next_opt rbind].
  change (negb (opt_eqb (Some "(") "(")) with false. cbv iota.
  rewrite (until_close_ok true []) by (repeat (apply bl_app; auto)). cbn [rbind]. rewrite next_hd. cbn [rbind]. rewrite X1, X2.
  rewrite X4. cbn [rbind]. rewrite next_hd. reflexivity.
Qed.
Lemma below_le : forall n m, below n -> size m <= size n -> below m.
Proof. intros n m H L x X. apply H. lia. Qed.
Lemma nf_low : forall L t k r, lower t = k -> mem k L = false -> nf L (t :: r).
Proof. intros L t k r <- H. cbn. apply mem_false. auto. Qed.

Lemma bind_ok : forall {A B} (e : R A) (f : A -> R B) a b, e = Ok a -> f a = b -> rbind e f = b.
Proof. intros A B e f a b -> H. exact H. Qed.

(** ** Head and OVER *)
Definition hov (o : eopts) (main : str) (ts : list str) : expr_res :=
  '(e, nt, ts) <- expr_head PI None o main ts ;; over_clause PI None e nt ts.
Lemma hov_ok : forall n ss r o, below n -> wf Ex n = true -> lvl n = 0 -> spelling (toks n) ss -> o_can_be_type o = false ->
  nf FA r -> (is_column n = true -> nf ["["] r) ->
  exists main rest, ss = main :: rest /\ hov o main (rest ++ r) = Ok (n, hd_error r, tl r).
Proof.
  intros n ss r o IH H L S O N C. destruct (is_over n) eqn:V.
  - destruct n; try discriminate V. assert (H0 := H). rewrite wf_analytics in H. bools. cbn [toks] in S. unfold parens in S.
    apply spelling_app in S as (s1 & s2 & -> & S1 & S). apply spelling_kw in S as (t & s & -> & T & S). apply spelling_id in S as (s' & -> & S).
    apply spelling_app in S as (u & v & -> & U & S). apply spelling_id in S as (w & -> & S). apply spelling_nil in S. subst w.
    assert (IHf : below n) by (eapply below_le; eauto; cbn; lia).
    destruct (head_ok n IHf H ltac:(lia) H4 s1 (t :: "(" :: (u ++ [")"]) ++ r) o) as (m & rest & -> & X); auto.
    + eapply nf_low; eauto.
    + intros _. eapply nf_low; eauto.
    + exists m. eexists. split; [reflexivity|]. unfold hov. rewrite <- app_assoc. eapply bind_ok; [exact X|]. cbn [hd_error tl].
      rewrite app_assoc3. cbn [app]. apply over_ok; auto.
  - destruct (head_ok n IH H L V ss r o) as (m & rest & -> & X); auto.
    { eapply nf_weak; eauto. inc. }
    exists m, rest. split; auto. unfold hov. rewrite X. cbn [rbind]. unfold over_clause. rewrite (nf_is _ _ "over" N) by (cbn; auto). reflexivity.
Qed.

(** ** Chained columns *)
Lemma dot_stop : forall P k eos U e nt ts, opt_eqb nt "." = false -> dot_loop P k eos U e nt ts = Ok (e, nt, ts).
Proof. intros P k eos U e nt ts H. destruct k; cbn [dot_loop]; rewrite H; auto. Qed.
Lemma index_stop : forall P k eos e nt ts, opt_eqb nt "[" = false -> index_loop P k eos e nt ts = Ok (e, nt, ts).
Proof. intros P k eos e nt ts H. destruct k; cbn [index_loop]; rewrite H; auto. Qed.
Definition hod (o : eopts) (main : str) (ts : list str) : expr_res :=
  '(e, nt, ts) <- hov o main ts ;; dot_loop PI (S (length ts)) None (o_until o) e nt ts.
Lemma hod_ok : forall n ss r o, below n -> wf Ex n = true -> lvl n <= 1 -> spelling (toks n) ss -> o_can_be_type o = false ->
  nf FA r -> nf ["."] r -> (is_column n = true \/ lvl n = 1 -> nf ["["] r) ->
  exists main rest, ss = main :: rest /\ hod o main (rest ++ r) = Ok (n, hd_error r, tl r).
Proof.
  intros n ss r o IH H L S O N D C. destruct (Nat.eq_dec (lvl n) 0) as [Z|Z].
  - destruct (hov_ok n ss r o) as (m & rest & -> & X); auto. exists m, rest. split; auto. unfold hod. rewrite X. cbn [rbind].
    apply dot_stop. eapply nf_eq; eauto. cbn; auto.
  - assert (E : lvl n = 1) by lia. destruct n; try discriminate E; try discriminate H. 2: destruct n; discriminate E.
    rewrite wf_chained in H. bools. cbn [toks] in S. apply spelling_app in S as (s1 & s2 & -> & S1 & S). sp.
    assert (IHf : below n1) by (eapply below_le; eauto; cbn; lia). assert (S2 : spec n2) by (apply IH; cbn; lia).
    destruct (hov_ok n1 s1 ("." :: x ++ r) o) as (m & rest & -> & X); try assumption; try lia; try (eapply nf_low; reflexivity); try (intros _; eapply nf_low; reflexivity).
    exists m. eexists. split; [reflexivity|]. unfold hod. rewrite <- app_assoc. eapply bind_ok; [exact X|]. cbn [hd_error tl dot_loop].
    rewrite opt_eqb_refl. change (mk_eopts false false true (o_until o) None true) with (opts_ch (o_until o)).
    assert (L2 : lvl n2 <= 1 \/ is_index n2 = true) by (match goal with Q : _ || _ = true |- _ => apply orb_true_iff in Q as [Q|Q] end; bools; auto).
    rewrite (s_ch n2 S2 H5 L2 (o_until o) x r) by (auto; try exact I; unfold F0; repeat (apply nf_app; split); auto;
      change ["["; "."] with (["["] ++ ["."]); apply nf_app; auto). cbn [rbind].
    apply dot_stop. eapply nf_eq; eauto. cbn; auto.
Qed.

(** ** Arithmetic and indices *)
Definition arith_step (o : eopts) (e : node) (nt : option str) (ts : list str) : expr_res :=
  match nt with
  | Some op =>
    if mem op ["+"; "-"; "*"; "/"] && negb (o_chained o) then
      '(r, nt, ts) <- p_expr PI None (opts_rh (o_until o)) ts ;; Ok (NArith op e r, nt, ts)
    else Ok (e, nt, ts)
  | None => Ok (e, nt, ts)
  end.
Definition har (o : eopts) (main : str) (ts : list str) : expr_res := '(e, nt, ts) <- hod o main ts ;; arith_step o e nt ts.
Definition post (o : eopts) (main : str) (ts : list str) : expr_res :=
  '(e, nt, ts) <- har o main ts ;; index_loop PI (S (length ts)) None e nt ts.
Lemma body_post : forall o main ts, o_first o = None ->
  p_expr PI None o (main :: ts) = ('(e, nt, ts) <- post o main ts ;; expr_tail PI None o e nt ts).
Proof.
  intros o main ts F. rewrite PI_expr by apply eok_none. unfold expr_body. rewrite F. cbn [next_req rbind]. unfold post, har, hod, hov.
  destruct (expr_head PI None o main ts) as [[[e nt] t]|]; [|reflexivity]. cbn [rbind].
  destruct (over_clause PI None e nt t) as [[[e1 nt1] t1]|]; [|reflexivity]. cbn [rbind].
  unfold expr_postfix. destruct (dot_loop PI (S (length t1)) None (o_until o) e1 nt1 t1) as [[[e2 nt2] t2]|]; [|reflexivity]. cbn [rbind].
  unfold arith_step. reflexivity.
Qed.
Lemma arith_stop : forall o e r, o_chained o = true \/ nf AR r -> arith_step o e (hd_error r) (tl r) = Ok (e, hd_error r, tl r).
Proof.
  intros o e [|t r] [H|H]; cbn [hd_error tl arith_step]; auto.
  - rewrite H, andb_false_r. auto.
  - replace (mem t ["+"; "-"; "*"; "/"]) with false; auto. symmetry. apply (nf_raw AR t r); auto.
Qed.
Lemma har_ok : forall n ss r o, below n -> wf Ex n = true -> lvl n <= 1 -> spelling (toks n) ss -> o_can_be_type o = false ->
  nf FA r -> nf ["."] r -> (is_column n = true \/ lvl n = 1 -> nf ["["] r) -> o_chained o = true \/ nf AR r ->
  exists main rest, ss = main :: rest /\ har o main (rest ++ r) = Ok (n, hd_error r, tl r).
Proof.
  intros n ss r o IH H L S O N D C A. destruct (hod_ok n ss r o) as (m & rest & -> & X); auto. exists m, rest. split; auto.
  unfold har. rewrite X. cbn [rbind]. apply arith_stop. auto.
Qed.
(** a chain of indices *)
Lemma index_chain : forall n ss r o, below n -> wf Ex n = true -> lvl n <= 0 \/ is_index n = true -> spelling (toks n) ss -> o_can_be_type o = false ->
  nf FA r -> nf ["."] r -> (is_column n = true -> nf ["["] r) -> o_chained o = true \/ nf AR r ->
  exists main rest e nt ts j, ss = main :: rest /\ har o main (rest ++ r) = Ok (e, nt, ts) /\ length (tl r) <= j
    /\ index_loop PI (S (length ts)) None e nt ts = index_loop PI (S j) None n (hd_error r) (tl r).
Proof.
  induction n as [n IHn] using node_ind'. intros ss r o IH H L S O N D C A. destruct (Nat.eq_dec (lvl n) 0) as [Z|Z].
  - destruct (har_ok n ss r o) as (m & rest & -> & X); auto; try lia; [intros [Q|Q]; auto; lia|].
    exists m, rest, n, (hd_error r), (tl r), (length (tl r)). auto.
  - destruct L as [L|L]; [lia|]. destruct n; try discriminate L. rewrite wf_index in H. bools.
    cbn [toks] in S. unfold brackets in S. apply spelling_app in S as (s1 & s2 & -> & S1 & S). apply spelling_id in S as (s' & -> & S).
    apply spelling_app in S as (u & v & -> & U & S). sp.
    assert (IC : is_column n = false) by (destruct n; auto; cbn in Z; congruence).
    assert (IHf : below n) by (eapply below_le; eauto; cbn; lia).
    assert (L1 : lvl n <= 0 \/ is_index n = true) by (match goal with Q : _ || _ = true |- _ => apply orb_true_iff in Q as [Q|Q] end; bools; auto).
    destruct (IHn n ltac:(left; auto) s1 ("[" :: (u ++ ["]"]) ++ r) o) as (m & rest & e & nt & ts & j & -> & X & J & Y);
      try assumption; try (eapply nf_low; reflexivity); [congruence|right; eapply nf_low; reflexivity|].
    exists m. do 4 eexists. cbn [hd_error tl] in Y, J. rewrite app_assoc3 in Y, J. cbn [app] in Y, J.
    destruct j as [|j]; [rewrite app_length in J; cbn in J; lia|]. exists j. split; [reflexivity|]. split; [|split].
    + rewrite <- app_assoc. exact X.
    + rewrite app_length in J. cbn [length] in J. destruct r; cbn [tl length] in *; lia.
    + rewrite Y. remember (S j) as k. cbn [index_loop]. rewrite opt_eqb_refl.
      assert (B : bl true ["]"] u) by (eapply args_bl0; eauto). rewrite (uo0 true ["]"] u) by (auto; left; auto). cbn [rbind hd_error tl].
      rewrite (args_ok indices) by (auto; apply (below_list (NIndex n indices)); auto; intros z W; right; auto). cbn [rbind].
      rewrite next_hd. reflexivity.
Qed.
Definition preads (n : node) (o : eopts) (F : list str) : Prop := forall ss r, spelling (toks n) ss -> nf F r ->
  exists main rest, ss = main :: rest /\ post o main (rest ++ r) = Ok (n, hd_error r, tl r).
Lemma F0_parts : forall r, nf F0 r -> nf FA r /\ nf ["["] r /\ nf ["."] r.
Proof. intros r H. repeat split; eapply nf_weak; eauto; inc. Qed.
Lemma post_1 : forall n o, below n -> wf Ex n = true -> lvl n <= 1 \/ is_index n = true -> o_can_be_type o = false ->
  forall F, incl F0 F -> (o_chained o = true \/ incl AR F) -> preads n o F.
Proof.
  intros n o IH H L O F I A ss r S N. destruct (F0_parts r) as (N1 & N2 & N3); [eapply nf_weak; eauto|].
  assert (NA : o_chained o = true \/ nf AR r) by (destruct A as [A|A]; auto; right; apply (nf_weak F); auto).
  destruct (is_index n) eqn:X.
  - destruct (index_chain n ss r o) as (m & rest & e & nt & ts & j & -> & Y & J & Z); auto. exists m, rest. split; auto.
    unfold post. rewrite Y. cbn [rbind]. rewrite Z. apply index_stop. apply (nf_eq ["["]); [assumption|left; reflexivity|reflexivity].
  - destruct L as [L|L]; [|discriminate]. destruct (har_ok n ss r o) as (m & rest & -> & Y); auto. exists m, rest. split; auto.
    unfold post. rewrite Y. cbn [rbind]. apply index_stop. apply (nf_eq ["["]); [assumption|left; reflexivity|reflexivity].
Qed.
Lemma post_2 : forall n o, below n -> wf Ex n = true -> lvl n <= 2 -> o_can_be_type o = false -> o_chained o = false -> preads n o (F0 ++ AR).
Proof.
  intros n o IH H L O CH. destruct (le_lt_dec (lvl n) 1) as [L1|L1].
  { apply post_1; auto; [|right]; intros x X; apply in_or_app; auto. }
  destruct (is_index n) eqn:X.
  { apply post_1; auto; [|right]; intros x Y; apply in_or_app; auto. }
  intros ss r S N. assert (N0 : nf F0 r) by (eapply nf_weak; eauto; intros x Y; apply in_or_app; auto).
  assert (NA : nf AR r) by (apply (nf_weak (F0 ++ AR)); [auto|intros x Y; apply in_or_app; auto]). destruct (F0_parts r N0) as (N1 & N2 & N3).
  assert (E : lvl n = 2) by lia. destruct n; try discriminate E; try discriminate H; try discriminate X.
  - (* NArith *) rewrite wf_arith in H. bools. cbn [toks] in S. apply spelling_app in S as (s1 & s2 & -> & S1 & S). apply spelling_id in S as (s' & -> & S).
    assert (IHf : below n1) by (eapply below_le; eauto; cbn; lia). assert (S2 : spec n2) by (apply IH; cbn; lia).
    assert (NOP : forall K, inclb K F0 = true -> nf K (op :: s' ++ r)).
    { intros K IK. apply inclb_ok in IK. eapply nf_weak; [|exact IK]. destruct H as [<-|[<-|[<-|[<-|[]]]]]; eapply nf_low; reflexivity. }
    destruct (hod_ok n1 s1 (op :: s' ++ r) o) as (m & rest & -> & Y); try assumption; try (apply NOP; reflexivity); [intros _; apply NOP; reflexivity|].
    exists m. eexists. split; [reflexivity|]. unfold post, har. rewrite <- app_assoc. cbn [app]. rewrite Y. cbn [rbind hd_error tl arith_step].
    replace (mem op ["+"; "-"; "*"; "/"]) with true by (symmetry; apply mem_In; auto). rewrite CH. cbn [andb negb].
    assert (W2 : wf Ex n2 = true) by assumption. rewrite (s_rh n2 S2 W2 ltac:(lia) (o_until o) s' r S N I). cbn [rbind]. apply index_stop. apply (nf_eq ["["]); [assumption|left; reflexivity|reflexivity].
  - (* NNeg *) rewrite wf_neg in H. bools. cbn [toks] in S. apply spelling_kw in S as (t & s & -> & T & S). exists t, s. split; auto.
    assert (S2 : spec n) by (apply IH; cbn; lia).
    assert (HD : expr_head PI None o t (s ++ r) = Ok (NNeg n, hd_error r, tl r)).
    { apply head_some. destruct (kw_facts _ _ T eq_refl) as (A & B & C & _). unfold expr_first. rewrite A, B, C, T.
      change (mem "not" BOOLEAN_VALUES) with false. change (mem "not" NULL_VALUES) with false. change (str_eqb "not" "not") with true. cbv iota.
      rewrite (s_rh n S2 H H0 (o_until o) s r S N I). reflexivity. }
    unfold post, har, hod, hov. rewrite HD. cbn [rbind]. unfold over_clause. rewrite (nf_is _ _ "over" N1) by (cbn; auto). cbn [rbind].
    rewrite dot_stop by (apply (nf_eq ["."]); [assumption|left; reflexivity|reflexivity]). cbn [rbind]. rewrite arith_stop by auto. cbn [rbind].
    apply index_stop. apply (nf_eq ["["]); [assumption|left; reflexivity|reflexivity].
Qed.
Lemma spec_rh : forall n, below n -> wf Ex n = true -> lvl n <= 2 -> forall U, reads (opts_rh U) n (F0 ++ AR) any.
Proof.
  intros n IH H L U ss r S N _. destruct (post_2 n (opts_rh U) IH H L eq_refl eq_refl ss r S N) as (m & rest & -> & X).
  cbn [app]. rewrite body_post by auto. rewrite X. reflexivity.
Qed.
Lemma spec_ch : forall n, below n -> wf Ex n = true -> lvl n <= 1 \/ is_index n = true -> forall U, reads (opts_ch U) n F0 any.
Proof.
  intros n IH H L U ss r S N _. destruct (post_1 n (opts_ch U) IH H L eq_refl F0 (incl_refl _) (or_introl eq_refl) ss r S N) as (m & rest & -> & X).
  cbn [app]. rewrite body_post by auto. rewrite X. reflexivity.
Qed.

(** ** Comparisons *)
Definition cmp (o : eopts) (main : str) (ts : list str) : expr_res :=
  '(e, nt, ts) <- post o main ts ;; expr_compare PI None o e nt ts.
Definition FC : list str := F0 ++ AR ++ CMP.
Lemma compare_stop : forall o e r, nf CMP r -> expr_compare PI None o e (hd_error r) (tl r) = Ok (e, hd_error r, tl r).
Proof.
  intros o e [|t r] N; auto. cbn [hd_error tl expr_compare].
  replace (mem (lower t) PREDICATES) with false by (symmetry; apply mem_false; intros X; apply N; apply in_or_app; auto).
  replace (str_eqb (lower t) "between") with false by (symmetry; apply str_eqb_neq; intros X; apply N; rewrite X; apply mem_In; reflexivity).
  replace (mem t BITWISE_OPERATORS) with false; auto. symmetry. apply (nf_raw BITWISE_OPERATORS t r); auto.
  eapply nf_weak; eauto. inc.
Qed.
Lemma FC_parts : forall r, nf FC r -> nf (F0 ++ AR) r /\ nf CMP r.
Proof. intros r H. split; eapply nf_weak; try exact H; inc. Qed.
Lemma nf_in : forall L M t r, In (lower t) M -> forallb (fun x => negb (mem x L)) M = true -> nf L (t :: r).
Proof. intros L M t r I F. cbn. rewrite forallb_forall in F. apply F in I. bools. auto. Qed.
Lemma cond_ok : forall e p r' ss r o, below (NCond e p r') -> wf Ex (NCond e p r') = true -> spelling (toks (NCond e p r')) ss ->
  o_can_be_type o = false -> o_chained o = false -> nf (F0 ++ AR) r ->
  exists main rest, ss = main :: rest /\ cmp o main (rest ++ r) = Ok (NCond e p r', hd_error r, tl r).
Proof.
  intros e p r' ss r o IH H S O CH N. rewrite wf_cond in H. bools. cbn [toks] in S.
  assert (IHe : below e) by (eapply below_le; eauto; cbn; lia).
  destruct (str_eqb_case (lower p) "between") as [[E1 E2]|[E1 E2]]; rewrite E1 in *.
  - destruct r'; try discriminate H0. bools. subst ty.
    apply spelling_app in S as (s1 & s2 & -> & S1 & S). apply spelling_id in S as (s' & -> & S). apply spelling_app in S as (sa & s3 & -> & SA & S).
    apply spelling_kw in S as (ta & sb & -> & TA & SB).
    assert (Sa : spec r'1) by (apply IH; cbn; lia). assert (Sb : spec r'2) by (apply IH; cbn; lia).
    destruct (post_2 e o IHe H H1 O CH s1 (p :: (sa ++ ta :: sb) ++ r)) as (m & rest & -> & X); [auto|eapply nf_low; eauto; reflexivity|].
    exists m. eexists. split; [reflexivity|]. unfold cmp. rewrite <- app_assoc. eapply bind_ok; [exact X|]. cbn [hd_error tl expr_compare].
    rewrite E2. change (mem "between" PREDICATES) with false. change (str_eqb "between" "between") with true. cbv iota. rewrite app_assoc3.
    rewrite (s_rh r'1 Sa) by (auto; try exact I; eapply nf_low; eauto; reflexivity). cbn [rbind hd_error tl]. rewrite (olow_low _ _ _ TA).
    change (negb (str_eqb "and" "and")) with false. cbv iota. rewrite (s_rh r'2 Sb) by (auto; exact I). reflexivity.
  - bools. assert (Sr : spec r') by (apply IH; cbn; lia). assert (Wr : wf Ex r' = true) by assumption. assert (Lr : lvl r' <= 2) by assumption.
    apply spelling_app in S as (s1 & s2 & -> & S1 & S). destruct (mem p ["is not"; "not in"]) eqn:M.
    + apply mem_In in M. destruct M as [<- |[<- |[]]].
      * change (kws "is not") with [Kw "is"; Kw "not"] in S. cbn [app] in S. apply spelling_kw in S as (t1 & s3 & -> & T1 & S). apply spelling_kw in S as (t2 & sr & -> & T2 & S).
        destruct (post_2 e o IHe H H1 O CH s1 (t1 :: t2 :: sr ++ r)) as (m & rest & -> & X); [auto|eapply nf_low; eauto; reflexivity|].
        exists m. eexists. split; [reflexivity|]. unfold cmp. rewrite <- app_assoc. eapply bind_ok; [exact X|]. cbn [hd_error tl expr_compare].
        rewrite T1. change (mem "is" PREDICATES) with true. change (str_eqb "is" "is") with true. cbv iota. cbn [next_req rbind]. rewrite T2.
        change (str_eqb "not" "not") with true. cbv iota. cbn [rbind]. change (mk_eopts true false true (o_until o) None false) with (opts_rh (o_until o)).
        rewrite (s_rh r' Sr) by (auto; exact I). reflexivity.
      * change (kws "not in") with [Kw "not"; Kw "in"] in S. cbn [app] in S. apply spelling_kw in S as (t1 & s3 & -> & T1 & S). apply spelling_kw in S as (t2 & sr & -> & T2 & S).
        destruct (post_2 e o IHe H H1 O CH s1 (t1 :: t2 :: sr ++ r)) as (m & rest & -> & X); [auto|eapply nf_low; eauto; reflexivity|].
        exists m. eexists. split; [reflexivity|]. unfold cmp. rewrite <- app_assoc. eapply bind_ok; [exact X|]. cbn [hd_error tl expr_compare].
        rewrite T1. change (mem "not" PREDICATES) with true. change (str_eqb "not" "is") with false. change (str_eqb "not" "not") with true. cbv iota. cbn [next_req rbind]. rewrite T2.
        change (str_eqb "in" "in") with true. cbv iota. cbn [rbind]. change (mk_eopts true false true (o_until o) None false) with (opts_rh (o_until o)).
        rewrite (s_rh r' Sr) by (auto; exact I). reflexivity.
    + cbn [app] in S. apply spelling_id in S as (sr & -> & S).
      assert (PL : In (lower p) ["="; ">"; "<"; "<="; ">="; "!="; "<>"; "is"; "like"; "in"; "contains"]).
      { apply mem_false in M. match goal with Q : _ || _ = true |- _ => apply orb_true_iff in Q as [Q|Q] end; bools.
        - cbn in H0, M |- *. repeat (destruct H0 as [<-|H0]; [tauto|]). destruct H0.
        - cbn in H0 |- *. tauto. }
      destruct (post_2 e o IHe H H1 O CH s1 (p :: sr ++ r)) as (m & rest & -> & X); [auto|eapply nf_in; eauto; reflexivity|].
      exists m. eexists. split; [reflexivity|]. unfold cmp. rewrite <- app_assoc. eapply bind_ok; [exact X|]. cbn [hd_error tl expr_compare].
      replace (mem (lower p) PREDICATES) with true by (symmetry; apply mem_In; revert PL; apply inclb_ok; reflexivity).
      replace (str_eqb (lower p) "not") with false
        by (symmetry; apply str_eqb_neq; intros Q; rewrite Q in PL; revert PL; apply mem_false; reflexivity).
      destruct (str_eqb_case (lower p) "is") as [[Q1 Q2]|[Q1 Q2]]; rewrite Q1 in *; cbv iota.
      * destruct sr as [|t sr]; [exfalso; eapply spelling_nonnil; [exact S|apply toks_nonnil; auto|auto]|]. cbn [app next_req rbind].
        assert (NG : is_neg r' = false) by (match goal with Q : true && _ = false |- _ => exact Q end).
        destruct (first_in r' t sr Wr S) as [_ F]. specialize (F Lr NG).
        replace (str_eqb (lower t) "not") with false
          by (symmetry; apply str_eqb_neq; intros Z; apply (okf_not _ ["not"] t F eq_refl); left; auto).
        cbn [rbind]. rewrite first_opt by (eapply okf_nonnil; eauto). change (mk_eopts true false true (o_until o) None false) with (opts_rh (o_until o)).
        change (t :: sr ++ r) with ((t :: sr) ++ r). rewrite (s_rh r' Sr) by (auto; exact I). reflexivity.
      * cbn [rbind]. change (mk_eopts true false true (o_until o) None false) with (opts_rh (o_until o)).
        rewrite (s_rh r' Sr) by (auto; exact I). reflexivity.
Qed.
Lemma cmp_ok : forall n ss r o, below n -> wf Ex n = true -> lvl n <= 3 -> spelling (toks n) ss ->
  o_can_be_type o = false -> o_chained o = false -> nf FC r ->
  exists main rest, ss = main :: rest /\ cmp o main (rest ++ r) = Ok (n, hd_error r, tl r).
Proof.
  intros n ss r o IH H L S O CH N. destruct (FC_parts r N) as [N1 N2]. destruct (le_lt_dec (lvl n) 2) as [L2|L2].
  { destruct (post_2 n o IH H L2 O CH ss r S N1) as (m & rest & -> & X). exists m, rest. split; auto. unfold cmp. rewrite X. cbn [rbind]. apply compare_stop. auto. }
  assert (E : lvl n = 3) by lia. destruct n; try discriminate E; try discriminate H; try (destruct n; discriminate E).
  - (* NBitwise *) rewrite wf_bitwise in H. bools. cbn [toks] in S. apply spelling_app in S as (s1 & s2 & -> & S1 & S). apply spelling_id in S as (s' & -> & S).
    assert (IHe : below n1) by (eapply below_le; eauto; cbn; lia). assert (S2 : spec n2) by (apply IH; cbn; lia).
    assert (W1 : wf Ex n1 = true) by assumption. assert (W2 : wf Ex n2 = true) by assumption.
    assert (OP : lower op = op) by (cbn in H; repeat (destruct H as [<-|H]; [reflexivity|]); destruct H).
    destruct (post_2 n1 o IHe W1 ltac:(lia) O CH s1 (op :: s' ++ r)) as (m & rest & -> & X); [auto|eapply nf_in; [rewrite OP; eauto|reflexivity]|].
    exists m. eexists. split; [reflexivity|]. unfold cmp. rewrite <- app_assoc. eapply bind_ok; [exact X|]. cbn [hd_error tl expr_compare].
    assert (Q : mem (lower op) PREDICATES = false /\ str_eqb (lower op) "between" = false)
      by (cbn in H; repeat (destruct H as [<-|H]; [split; reflexivity|]); destruct H).
    destruct Q as [-> ->]. replace (mem op BITWISE_OPERATORS) with true by (symmetry; apply mem_In; auto).
    rewrite (s_rh n2 S2) by (auto; exact I). reflexivity.
  - eapply cond_ok; eauto.
Qed.

(** ** The rest of an expression *)
Lemma full_eq : forall ca U main ts, p_expr PI None (full ca U) (main :: ts) =
  ('(e, nt, ts) <- cmp (full ca U) main ts ;;
   '(e, nt, ts) <- expr_bool PI None (full ca U) e nt ts ;;
   '(e, nt, ts) <- expr_except PI None e nt ts ;;
   '(e, nt, ts) <- expr_replace PI None e nt ts ;;
   expr_alias PI None (full ca U) e nt ts).
Proof.
  intros ca U main ts. rewrite body_post by auto. unfold cmp. destruct (post (full ca U) main ts) as [[[e nt] t]|]; reflexivity.
Qed.
Lemma bool_stop : forall o e r, nf BO r -> expr_bool PI None o e (hd_error r) (tl r) = Ok (e, hd_error r, tl r).
Proof.
  intros o e [|t r] N; auto. cbn [hd_error tl expr_bool]. replace (mem (lower t) BOOL_PREDICATES) with false; auto.
  symmetry. apply mem_false. intros X. apply N. exact X.
Qed.
Lemma except_stop : forall e r, nf ["except"] r -> expr_except PI None e (hd_error r) (tl r) = Ok (e, hd_error r, tl r).
Proof. intros e r N. unfold expr_except. rewrite (nf_is _ _ "except" N) by (cbn; auto). auto. Qed.
Lemma replace_stop : forall e r, nf ["replace"] r -> expr_replace PI None e (hd_error r) (tl r) = Ok (e, hd_error r, tl r).
Proof. intros e r N. unfold expr_replace. rewrite (nf_is _ _ "replace" N) by (cbn; auto). auto. Qed.
Lemma alias_stop : forall o e r, noalias (o_until o) r -> expr_alias PI None o e (hd_error r) (tl r) = Ok (e, hd_error r, tl r).
Proof.
  intros o e [|t r] N; auto. cbn [hd_error tl expr_alias]. destruct N as [-> |[-> |N]]; [reflexivity|rewrite andb_false_r; reflexivity|].
  replace (mem (lower t) (o_until o)) with true by (symmetry; apply mem_In; auto). cbn [negb]. rewrite andb_false_r. reflexivity.
Qed.
Lemma FULL_parts : forall r, nf FULL r -> nf FC r /\ nf BO r /\ nf ["except"] r /\ nf ["replace"] r.
Proof. intros r H. repeat split; eapply nf_weak; try exact H; inc. Qed.
Lemma spec_full : forall n, below n -> wf Ex n = true -> lvl n <= 4 -> forall U ca, reads (full ca U) n FULL (noalias U).
Proof.
  intros n IH H L U ca ss r S N NA. destruct (FULL_parts r N) as (N1 & N2 & N3 & N4).
  assert (X : exists main rest, ss = main :: rest /\
    ('(e, nt, ts) <- cmp (full ca U) main (rest ++ r) ;; expr_bool PI None (full ca U) e nt ts) = Ok (n, hd_error r, tl r)).
  { destruct (le_lt_dec (lvl n) 3) as [L3|L3].
    - destruct (cmp_ok n ss r (full ca U) IH H L3 S eq_refl eq_refl N1) as (m & rest & -> & X). exists m, rest. split; auto.
      rewrite X. cbn [rbind]. apply bool_stop. auto.
    - assert (E : lvl n = 4) by lia. destruct n; try discriminate E; try discriminate H; try (destruct n; discriminate E).
      rewrite wf_boolc in H. bools. cbn [toks] in S. apply spelling_app in S as (s1 & s2 & -> & S1 & S). apply spelling_id in S as (s' & -> & S).
      assert (IHe : below n1) by (eapply below_le; eauto; cbn; lia). assert (S2 : spec n2) by (apply IH; cbn; lia).
      destruct (cmp_ok n1 s1 (ty :: s' ++ r) (full ca U) IHe ltac:(assumption) ltac:(assumption) S1 eq_refl eq_refl) as (m & rest & -> & X); [eapply nf_in; eauto; reflexivity|].
      exists m. eexists. split; [reflexivity|]. rewrite <- app_assoc. eapply bind_ok; [exact X|]. cbn [hd_error tl expr_bool].
      replace (mem (lower ty) BOOL_PREDICATES) with true by (symmetry; apply mem_In; auto).
      change (opts_until (o_until (full ca U))) with (full true U).
      assert (W2 : wf Ex n2 = true) by assumption. assert (L2 : lvl n2 <= 4) by assumption.
      rewrite (s_full n2 S2 W2 L2 U true s' r S N NA). cbn [rbind]. destruct n2; try reflexivity. cbn in L2. lia. }
  destruct X as (m & rest & -> & X). cbn [app]. rewrite full_eq. 
  destruct (cmp (full ca U) m (rest ++ r)) as [[[e nt] t]|]; [|discriminate X]. cbn [rbind] in X |- *. rewrite X. cbn [rbind].
  rewrite except_stop by auto. cbn [rbind]. rewrite replace_stop by auto. cbn [rbind]. apply alias_stop. auto.
Qed.

(** ** Arguments *)
Definition xex (main : str) (ts : list str) : expr_res :=
  '(e, nt, ts) <- cmp opts0 main ts ;;
  '(e, nt, ts) <- expr_bool PI None opts0 e nt ts ;;
  expr_except PI None e nt ts.
Definition xrp (main : str) (ts : list str) : expr_res := '(e, nt, ts) <- xex main ts ;; expr_replace PI None e nt ts.
Lemma arg_eq : forall main ts, p_expr PI None opts0 (main :: ts) = ('(e, nt, ts) <- xrp main ts ;; expr_alias PI None opts0 e nt ts).
Proof.
  intros main ts. change opts0 with (full true []). rewrite full_eq. unfold xrp, xex.
  change opts0 with (full true []). destruct (cmp (full true []) main ts) as [[[e nt] t]|]; [|reflexivity]. cbn [rbind].
  destruct (expr_bool PI None (full true []) e nt t) as [[[e1 nt1] t1]|]; [|reflexivity]. cbn [rbind].
  destruct (expr_except PI None e1 nt1 t1) as [[[e2 nt2] t2]|]; reflexivity.
Qed.
Lemma xex_ok : forall n ss r, below n -> wf Ex n = true -> lvl n <= 3 \/ lvl n = 5 -> spelling (toks n) ss ->
  nf FC r -> nf BO r -> nf ["except"] r ->
  exists main rest, ss = main :: rest /\ xex main (rest ++ r) = Ok (n, hd_error r, tl r).
Proof.
  intros n ss r IH H L S N1 N2 N3. destruct L as [L|L].
  - destruct (cmp_ok n ss r opts0 IH H L S eq_refl eq_refl N1) as (m & rest & -> & X). exists m, rest. split; auto.
    unfold xex. rewrite X. cbn [rbind]. rewrite bool_stop by auto. cbn [rbind]. apply except_stop. auto.
  - destruct n; try discriminate L; try (destruct n; discriminate L). rewrite wf_except in H. bools. cbn [toks] in S. unfold parens in S.
    apply spelling_app in S as (s1 & s2 & -> & S1 & S). apply spelling_kw in S as (t & s & -> & T & S). apply spelling_id in S as (s' & -> & S).
    apply spelling_app in S as (u & v & -> & U & S). apply spelling_id in S as (w & -> & S). apply spelling_nil in S. subst w.
    assert (IHe : below n) by (eapply below_le; eauto; cbn; lia).
    destruct (cmp_ok n s1 (t :: "(" :: (u ++ [")"]) ++ r) opts0 IHe ltac:(assumption) ltac:(assumption) S1 eq_refl eq_refl) as (m & rest & -> & X); [eapply nf_low; eauto|].
    exists m. eexists. split; [reflexivity|]. unfold xex. rewrite <- app_assoc. eapply bind_ok; [exact X|].
    eapply bind_ok; [apply bool_stop; eapply nf_low; eauto|]. unfold expr_except. cbn [hd_error tl]. rewrite (olow_low _ _ _ T).
    change (str_eqb "except" "except") with true. cbv iota. cbn [next_opt rbind]. change (negb (opt_eqb (Some "(") "(")) with false. cbv iota.
    rewrite app_assoc3. cbn [app]. rewrite (until_close_ok true []) by (eapply args_bl; eauto). cbn [rbind].
    rewrite (args_ok args) by (auto; apply (below_list _ args IH); intros z Z; right; auto). cbn [rbind]. rewrite next_hd. reflexivity.
Qed.
Lemma xrp_ok : forall n ss r, below n -> wf Ex n = true -> lvl n <= 3 \/ lvl n = 5 \/ lvl n = 6 -> spelling (toks n) ss ->
  nf FULL r -> exists main rest, ss = main :: rest /\ xrp main (rest ++ r) = Ok (n, hd_error r, tl r).
Proof.
  intros n ss r IH H L S N. destruct (FULL_parts r N) as (N1 & N2 & N3 & N4). destruct (Nat.eq_dec (lvl n) 6) as [L6|L6].
  - destruct n; try discriminate L6; try (destruct n; discriminate L6). rewrite wf_replace in H. bools. cbn [toks] in S. unfold parens in S.
    apply spelling_app in S as (s1 & s2 & -> & S1 & S). apply spelling_kw in S as (t & s & -> & T & S). apply spelling_id in S as (s' & -> & S).
    apply spelling_app in S as (u & v & -> & U & S). apply spelling_id in S as (w & -> & S). apply spelling_nil in S. subst w.
    assert (IHe : below n) by (eapply below_le; eauto; cbn; lia).
    assert (L1 : lvl n <= 3 \/ lvl n = 5) by (match goal with Q : _ || _ = true |- _ => apply orb_true_iff in Q as [Q|Q] end; bools; auto; right; apply Nat.eqb_eq; auto).
    destruct (xex_ok n s1 (t :: "(" :: (u ++ [")"]) ++ r) IHe H L1 S1) as (m & rest & -> & X); try (eapply nf_low; eauto; fail).
    exists m. eexists. split; [reflexivity|]. unfold xrp. rewrite <- app_assoc. eapply bind_ok; [exact X|].
    unfold expr_replace. cbn [hd_error tl]. rewrite (olow_low _ _ _ T).
    change (str_eqb "replace" "replace") with true. cbv iota. cbn [next_opt rbind]. change (negb (opt_eqb (Some "(") "(")) with false. cbv iota.
    rewrite app_assoc3. cbn [app]. rewrite (until_close_ok true []) by (eapply args_bl; eauto). cbn [rbind].
    rewrite (args_ok args) by (auto; apply (below_list _ args IH); intros z Z; right; auto). cbn [rbind]. 
    change (forallb is_as_alias args) with (forallb as_alias args). match goal with Q : forallb as_alias args = true |- _ => rewrite Q end. cbn [rassert rbind].
    rewrite next_hd. reflexivity.
  - destruct (xex_ok n ss r) as (m & rest & -> & X); auto; [lia|]. exists m, rest. split; auto. unfold xrp. rewrite X. cbn [rbind].
    apply replace_stop. auto.
Qed.
Lemma last_op_id : forall n, lvl n <> 4 -> last_op n = n.
Proof. intros n H. destruct n; auto. cbn in H. lia. Qed.
Lemma wf_str : forall x, is_str x = true -> wf Ex x = true -> exists v q, x = NString v q None /\ In q QUOTES /\ content v = true.
Proof. intros x S H. destruct x; try discriminate S. cbn [wf] in H. destruct prefix; [discriminate|]. bools. eauto. Qed.
Lemma alias_ok : forall e a w ss, below (NAlias e a w) -> aliasok e a w = true -> lvl e <> 4 ->
  spelling ((if w then [Kw "as"] else []) ++ match a with inl t => [Id t] | inr x => toks x end) ss ->
  nf FULL ss /\ expr_alias PI None opts0 e (hd_error ss) (tl ss) = Ok (NAlias e a w, None, []).
Proof.
  intros e a w ss IH H L S. unfold aliasok in H. rewrite (last_op_id e L) in H. destruct w.
  - destruct a as [t|x]; [discriminate|]. cbn [app] in S. apply spelling_kw in S as (t & s & -> & T & S).
    split; [eapply nf_low; eauto|]. bools.
    cbn [hd_error tl expr_alias]. assert (Q := word_plain _ _ T eq_refl). 
    assert (M : str_eqb t ")" = false /\ mem t QUOTES = false /\ str_eqb t ";" = false).
    { split; [|split]; [apply str_eqb_neq|apply mem_false|apply str_eqb_neq]; intros Z; [| |rewrite Z in T; discriminate T]; apply Q; rewrite ?Z; try (apply mem_In; reflexivity).
      revert Z. apply inclb_ok. reflexivity. }
    destruct M as (-> & -> & ->). cbn [negb andb mem existsb o_until opts0 o_can_alias]. rewrite T. change (str_eqb "as" "as") with true. cbv iota.
    assert (Sx : spec x) by (apply IH; cbn; lia).
    rewrite (rh_end x Sx); auto.
    apply orb_true_iff in H as [H|H]; bools; destruct x; try discriminate H; cbn; lia.
  - cbn [app] in S. destruct a as [t|x].
    + apply spelling_id in S as (s & -> & S). apply spelling_nil in S. subst s.
      split; [apply (ident_not FULL t); [reflexivity|auto]|]. cbn [hd_error tl expr_alias]. assert (Q := ident_marks t H).
      assert (M : str_eqb t ")" = false /\ mem t QUOTES = false /\ str_eqb t ";" = false).
      { split; [|split]; [apply str_eqb_neq|apply mem_false|apply str_eqb_neq]; intros Z; [| |rewrite Z in H; discriminate H]; apply Q; rewrite ?Z; try (apply mem_In; reflexivity).
        revert Z. apply inclb_ok. reflexivity. }
      destruct M as (-> & -> & ->). cbn [negb andb mem existsb o_until opts0 o_can_alias].
      replace (str_eqb (lower t) "as") with false
        by (symmetry; apply str_eqb_neq; intros Z; apply (ident_not ["as"] t eq_refl H); left; auto). reflexivity.
    + bools. destruct (wf_str x H H1) as (v & q & -> & Q & C). cbn [toks] in S. apply spelling_id in S as (s & -> & S).
      split; [destruct Q as [<-|[<-|[<-|[]]]]; eapply nf_low; reflexivity|]. cbn [hd_error tl expr_alias].
      change (is_string_node e) with (is_str e). match goal with Z : is_str e = false |- _ => rewrite Z end.
      replace (str_eqb q ")") with false by (destruct Q as [<-|[<-|[<-|[]]]]; reflexivity).
      replace (str_eqb q ";") with false by (destruct Q as [<-|[<-|[<-|[]]]]; reflexivity).
      replace (str_eqb (lower q) "as") with false by (destruct Q as [<-|[<-|[<-|[]]]]; reflexivity).
      replace (mem q QUOTES) with true by (symmetry; apply mem_In; auto). cbn [negb andb mem existsb o_until opts0 o_can_alias].
      rewrite <- (app_nil_r s). rewrite (string_ok v q s []) by auto. reflexivity.
Qed.
Lemma head_end : forall o main ts e, o_right_hand o || o_chained o = false -> expr_head PI None o main ts = Ok (e, None, []) -> o_first o = None ->
  p_expr PI None o (main :: ts) = Ok (e, None, []).
Proof.
  intros o main ts e O H F. rewrite body_post by auto. unfold post, har, hod, hov. rewrite H. cbn [rbind]. unfold expr_tail. rewrite O. reflexivity.
Qed.
Lemma spec_arg : forall n, below n ->
  (wf St n = true -> is_sel n = true -> forall t ss, spelling (toks n) (t :: ss) -> p_select PI None ss = Ok n) -> argok n = true -> forall ss, spelling (toks n) ss -> p_expr PI None opts0 ss = Ok (n, None, []).
Proof.
  intros n IH SE H ss S. assert (H' := H). unfold argok in H. destruct (is_sel n) eqn:SEL; bools.
  - destruct n; try discriminate SEL. assert (S0 := S). cbn [toks] in S. apply spelling_kw in S as (t & s & -> & T & _).
    assert (SE1 := SE H eq_refl t s S0). assert (B := arg_bl _ _ H' S0). apply bl_tail in B; [|split; [eapply word_plain; eauto|rewrite T; apply mem_false; reflexivity]].
    apply head_end; auto. unfold expr_head.
    destruct (kw_facts _ _ T eq_refl) as (A1 & A2 & A3 & _). assert (A4 := word_plain _ _ T eq_refl).
    unfold expr_first. rewrite A1, A2, A3.
    replace (str_eqb t "(") with false by (symmetry; apply str_eqb_neq; intros ->; apply A4; left; auto).
    replace (str_eqb t "[") with false by (symmetry; apply str_eqb_neq; intros ->; apply A4; right; right; left; auto).
    rewrite T. change (mem "select" BOOLEAN_VALUES) with false. change (mem "select" NULL_VALUES) with false.
    change (str_eqb "select" "not") with false. change (str_eqb "select" "case") with false. change (str_eqb "select" "select") with true. cbv iota.
    rewrite (uo0_end true [","] s []) by auto. cbn [rbind next_opt]. rewrite SE1. reflexivity.
  - destruct (le_lt_dec (lvl n) 4) as [L4|L4].
    { assert (X := spec_full n IH H L4 [] true ss [] S (nf_nil _) Logic.I). rewrite app_nil_r in X. exact X. }
    destruct (le_lt_dec (lvl n) 6) as [L6|L6].
    { destruct (xrp_ok n ss [] IH H ltac:(lia) S (nf_nil _)) as (m & rest & -> & X). rewrite app_nil_r in X. rewrite arg_eq, X. reflexivity. }
    destruct n; cbn [lvl] in *; try lia; try discriminate H; try (destruct n; lia).
    + (* NDatePart *) rewrite wf_datepart in H. bools. cbn [toks] in S. apply spelling_id in S as (s & -> & S). apply spelling_kw in S as (t & s' & -> & T & S).
      assert (Sn : spec n) by (apply IH; cbn; lia). assert (Wn : wf Ex n = true) by assumption. assert (Ln : lvl n <= 4) by assumption.
      apply head_end; auto. unfold expr_head.
      assert (F : expr_first PI None opts0 part (t :: s') = Ok (None, None, t :: s')).
      { eapply kw_first; [reflexivity| |]; cbn in H; repeat (destruct H as [<-|H]; [reflexivity|]); destruct H. }
      rewrite F. cbn [rbind is_none next_opt]. unfold expr_second.
      replace (opt_eqb (Some t) "(") with false
        by (symmetry; cbn; apply str_eqb_neq; intros ->; discriminate T).
      replace (mem (lower part) PARTS) with true by (symmetry; apply mem_In; auto). rewrite (olow_low _ _ _ T).
      change (true && str_eqb "from" "from") with true. cbv iota. change (opts_until (o_until opts0)) with (full true []).
      rewrite (full_end n Sn Wn Ln) by auto. reflexivity.
    + (* NAlias *) assert (HW := H). rewrite wf_alias in H. bools. assert (IHe : below n) by (eapply below_le; eauto; cbn; lia).
      assert (A : aliasok n alias with_as = true) by assumption. cbn [toks] in S.
      apply spelling_app in S as (s1 & s2 & -> & S1 & S). destruct (Nat.eq_dec (lvl n) 4) as [E|E].
      * destruct n; try discriminate E; try (destruct n; discriminate E). rewrite wf_boolc in H. bools. cbn [toks] in S1.
        apply spelling_app in S1 as (sl & s0 & -> & SL & S1). apply spelling_id in S1 as (s' & -> & S1).
        assert (IHl : below n1) by (eapply below_le; eauto; cbn; lia).
        assert (W1 : wf Ex n1 = true) by assumption. assert (L1 : lvl n1 <= 3) by assumption.
        assert (W2 : wf Ex n2 = true) by assumption. assert (L2 : lvl n2 <= 4) by assumption.
        destruct (cmp_ok n1 sl (ty :: s' ++ s2) opts0 IHl W1 L1 SL eq_refl eq_refl) as (m & rest & -> & X); [eapply nf_in; eauto; reflexivity|].
        assert (SA : spec (NAlias n2 alias with_as)) by (apply IH; destruct alias; cbn; lia).
        assert (AO : argok (NAlias n2 alias with_as) = true).
        { unfold argok. cbn [is_sel lvl]. rewrite wf_alias, W2. replace (lvl n2 <=? 6) with true by (symmetry; apply Nat.leb_le; lia).
          cbn [andb]. rewrite andb_true_r. exact A. }
        rewrite <- app_assoc. cbn [app]. rewrite arg_eq. unfold xrp, xex. rewrite X. cbn [rbind hd_error tl expr_bool].
        replace (mem (lower ty) BOOL_PREDICATES) with true by (symmetry; apply mem_In; auto). change (opts_until (o_until opts0)) with opts0.
        rewrite (s_arg _ SA AO (s' ++ s2)) by (cbn [toks]; apply Forall2_app; auto). reflexivity.
      * destruct (alias_ok n alias with_as s2 IH A E S) as [N X].
        destruct (xrp_ok n s1 s2 IHe H ltac:(lia) S1 N) as (m & rest & -> & Y). cbn [app]. rewrite arg_eq, Y. exact X.
Qed.
