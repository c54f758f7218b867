(** The parser inverts [toks] on the grammar fragment: calls, literals, CASE, OVER. *)
From Verif Require Import PyStr Lib Digits AstLib PyFloat Tokeniser Ast Parser Api ProofTerm ProofFuel Ideal Grammar Scan GramTok GramExpr.
Local Open Scope str_scope.
Local Open Scope list_scope.

(** ** Token readers, with computed side conditions *)
Definition marksb (stop : list str) : bool := forallb (fun x => negb (mem x ["("; "["; "'"; """"; "`"; "case"; "with"])) stop.
Lemma marksb_ok : forall stop, marksb stop = true -> marks_ok stop.
Proof. intros stop H x I. unfold marksb in H. rewrite forallb_forall in H. apply H in I. bools. auto. Qed.
Lemma uo0 : forall w K u stop r, bl w K u -> inclb stop K = true -> marksb stop = true -> negb w || negb (mem "offset" stop) = true ->
  stopped stop r -> until_one_of None stop None [] (u ++ r) = Ok (u, hd_error r, tl r).
Proof.
  intros w K u stop r H I M O S. apply (uo_ok w K u H false stop r); auto.
  - apply inclb_ok. auto.
  - apply marksb_ok. auto.
  - intros ->. right. cbn in O. bools. auto.
Qed.
Lemma uo0_end : forall w K u stop, bl w K u -> inclb stop K = true -> marksb stop = true -> negb w || negb (mem "offset" stop) = true ->
  until_one_of None stop None [] u = Ok (u, None, []).
Proof. intros w K u stop H I M O. rewrite <- (app_nil_r u) at 1. rewrite (uo0 w K u stop []); auto. exact Logic.I. Qed.
Lemma uof : forall w K f u stop r, bl w K (f :: u) -> inclb stop K = true -> marksb stop = true -> negb w || negb (mem "offset" stop) = true ->
  forallb (fun x => negb (mem x ("end" :: WTE))) stop = true \/ lower f <> "case" ->
  stopped stop r -> until_one_of None stop (Some f) [] (u ++ r) = Ok (f :: u, hd_error r, tl r).
Proof.
  intros w K f u stop r H I M O C S. apply (uo_first w K f u H false stop r); auto.
  - apply inclb_ok. auto.
  - apply marksb_ok. auto.
  - intros ->. right. cbn in O. bools. auto.
  - destruct C as [C|C]; auto. left. intros x X. rewrite forallb_forall in C. apply C in X. bools. auto.
Qed.
Lemma uof_end : forall w K f u stop, bl w K (f :: u) -> inclb stop K = true -> marksb stop = true -> negb w || negb (mem "offset" stop) = true ->
  forallb (fun x => negb (mem x ("end" :: WTE))) stop = true \/ lower f <> "case" ->
  until_one_of None stop (Some f) [] u = Ok (f :: u, None, []).
Proof. intros w K f u stop H I M O C. rewrite <- (app_nil_r u) at 1. rewrite (uof w K f u stop []); auto. exact Logic.I. Qed.
Lemma args_bl0 : forall l ss stop, forallb argok l = true -> spelling (commas (map toks l)) ss -> inclb stop BASE = true -> bl true stop ss.
Proof. intros l ss stop H S I. apply bl_base; auto. eapply args_bl; eauto. Qed.
Lemma opt_eqb_refl : forall k, opt_eqb (Some k) k = true.
Proof. intros k. apply str_eqb_refl. Qed.
Lemma eqb_low : forall t k k', lower t = k -> str_eqb (lower t) k' = str_eqb k k'.
Proof. intros t k k' <-. auto. Qed.

Lemma truthy_low : forall t k, lower t = k -> mem [] [k] = false -> truthy (Some t) = true.
Proof. intros [|c t] k <- H; [discriminate H|auto]. Qed.
Lemma olow_low : forall t k k', lower t = k -> olow_is (Some t) k' = str_eqb k k'.
Proof. intros t k k' <-. auto. Qed.

(** ** ORDER BY *)
Definition ispec (i : node) : Prop := match i with NOrderItem e _ _ => spec e | _ => True end.
Lemma item_bl : forall i ss, itemok i = true -> spelling (toks i) ss -> bl false (minus STOPS ["asc"; "desc"]) ss.
Proof.
  intros i ss H S. destruct i; try discriminate H. cbn [itemok] in H. bools. cbn [toks] in S. sp. apply bl_app.
  - eapply bl_weak; [apply (ex_bl4 i); auto; lia|auto|apply minus_incl].
  - revert S. apply blt_app with (a := []); [apply blt_nil|]. destruct asc; [|destruct desc]; try (apply blt_kw; [reflexivity|]); apply blt_nil.
Qed.
Lemma items_bl : forall l ss, forallb itemok l = true -> spelling (commas (map toks l)) ss -> bl false (minus STOPS [","; "asc"; "desc"]) ss.
Proof.
  intros l ss H S. revert ss S. apply blt_commas; [apply mem_false; reflexivity|]. rewrite forallb_forall in H. apply Forall_map, Forall_forall.
  intros a A ss S. eapply bl_weak; [apply (item_bl a); auto|auto|inc].
Qed.
Lemma item_ok : forall i ss, ispec i -> itemok i = true -> spelling (toks i) ss -> orderby_item PI ss = Ok i.
Proof.
  intros i ss P H S. destruct i; try discriminate H. cbn [itemok] in H. bools. cbn [toks] in S. sp. cbn [ispec] in P.
  unfold orderby_item. assert (B : bl false STOPS x) by (apply (ex_bl4 i); auto; lia).
  assert (T : stopped ["asc"; "desc"] x0 /\ olow_is (hd_error x0) "asc" = asc /\ olow_is (hd_error x0) "desc" = desc).
  { destruct asc, desc; try discriminate H1; sp; cbn [hd_error stopped olow_is olower option_map opt_eqb]; repeat split; auto;
    unfold olow_is; cbn [olower option_map opt_eqb]; try (match goal with E : lower _ = _ |- _ => rewrite E end); cbn; auto. }
  destruct T as (T & A & D). rewrite (uo0 false STOPS x) by auto. cbn [rbind].
  change opts0 with (full true []). rewrite (full_end i) by (auto; lia). cbn [rbind]. rewrite A, D. auto.
Qed.
Lemma commas_len : forall l, length l <= S (length (commas l)).
Proof. induction l as [|a l IH]; auto. destruct l as [|b l]; [cbn; lia|].
  change (commas (a :: b :: l)) with (a ++ Id "," :: commas (b :: l)). rewrite app_length. cbn [length] in *. lia. Qed.
Lemma commas_cons : forall a b l, commas (map toks (a :: b :: l)) = toks a ++ Id "," :: commas (map toks (b :: l)).
Proof. reflexivity. Qed.
Lemma spelling_len : forall ts ss, spelling ts ss -> length ss = length ts.
Proof. intros ts ss H. induction H; cbn; auto. Qed.
Lemma items_loop : forall l ss k, Forall ispec l -> itemsok l = true -> spelling (commas (map toks l)) ss -> length l <= k ->
  orderby_loop PI k ss = Ok l.
Proof.
  intros l ss k P. revert ss k. induction P as [|a l A B IH]; intros ss k H S L; [discriminate H|].
  unfold itemsok in H. cbn [nonnil forallb] in H. bools. destruct k as [|k]; [cbn in L; lia|]. cbn [orderby_loop].
  assert (X : exists u v, ss = u ++ v /\ spelling (toks a) u /\ stopped [","] v /\
    (if truthy (hd_error v) then es <- orderby_loop PI k (tl v) ;; Ok (a :: es) else Ok [a]) = Ok (a :: l)).
  { destruct l as [|b l].
    - exists ss, []. rewrite app_nil_r. cbn. auto.
    - rewrite commas_cons in S. apply spelling_app in S as (u & v & -> & U & S). apply spelling_id in S as (x & -> & S).
      exists u, ("," :: x). split; auto. split; auto. split; [left; auto|]. cbn [hd_error tl truthy].
      rewrite IH; [reflexivity|assumption|assumption|cbn [length] in *; lia]. }
  destruct X as (u & v & -> & U & V & X). rewrite (uo0 false (minus STOPS ["asc"; "desc"]) u) by (auto; apply (item_bl a); auto). cbn [rbind].
  rewrite (item_ok a u) by auto. cbn [rbind]. exact X.
Qed.
Lemma items_ok : forall l ss, Forall ispec l -> itemsok l = true -> spelling (commas (map toks l)) ss -> orderby PI ss = Ok l.
Proof.
  intros l ss P H S. unfold orderby. apply items_loop; auto. rewrite (spelling_len _ _ S), <- (map_length toks l). apply commas_len.
Qed.

(** ** Calls *)
Definition call0 (P : parsers_t) (eos : option exn) (o : eopts) (main : str) (ts : list str) : R (node * list str) :=
  if str_eqb (lower main) "cast" then cast_call P eos o ts
  else if str_eqb (lower main) "array_agg" then array_agg_call P eos o ts
  else if str_eqb (lower main) "count" then count_call P eos ts
  else other_call P eos o main ts.
Definition below (n : node) : Prop := forall m, size m < size n -> spec m.
Lemma below_list : forall n l, below n -> incl l (children n) -> Forall spec l.
Proof. intros n l H I. apply Forall_forall. intros x X. apply H, children_size. auto. Qed.
Lemma below_items : forall n l, below n -> incl l (children n) -> Forall ispec l.
Proof.
  intros n l H I. apply Forall_forall. intros x X. apply I, children_size in X. destruct x; cbn [ispec]; auto. apply H. cbn in X. lia.
Qed.
Lemma app_assoc3 : forall {A} (a b : list A) x c, (a ++ x :: b) ++ c = a ++ x :: b ++ c.
Proof. intros. rewrite <- app_assoc. auto. Qed.

Lemma cast_ok : forall e ty ss, below (NCast e ty) -> wf Ex (NCast e ty) = true -> spelling (toks e ++ [Kw "as"; Id ty] ++ [Id ")"]) ss ->
  forall o r, cast_call PI None o (ss ++ r) = Ok (NCast e ty, r).
Proof.
  intros e ty ss IH H S o r. rewrite wf_cast in H. bools. cbn [app] in S. sp. unfold cast_call. rewrite <- app_assoc. cbn [app].
  assert (B : bl false STOPS x) by (apply (ex_bl4 e); auto; lia).
  rewrite (uo0 false STOPS x) by (auto; left; auto). cbn [rbind hd_error tl].
  assert (SE : spec e) by (apply IH; cbn; lia).
  rewrite (rh_end e) by auto. cbn [rbind]. unfold olow_is. cbn [olower option_map opt_eqb].
  match goal with E : lower _ = "as" |- _ => rewrite E end. reflexivity.
Qed.
Lemma args_first : forall l ss, nonnil l = true -> forallb argok l = true -> spelling (commas (map toks l)) ss ->
  exists t x, ss = t :: x /\ OKF ("select" :: "not" :: FIRST0) t.
Proof.
  intros l ss N H S. destruct l as [|a l]; [discriminate N|]. cbn [forallb] in H. bools.
  destruct ss as [|t x]; [exfalso|exists t, x; split; [auto|]].
  - destruct l as [|b l]; [cbn [map commas] in *|rewrite commas_cons in *; apply spelling_app in S as (? & ? & E & S & _);
      symmetry in E; apply app_eq_nil in E as [-> _]]; eapply arg_nonnil; eauto.
  - destruct l as [|b l]; [cbn [map commas] in *; eapply first_arg; eauto|]. rewrite commas_cons in S.
      apply app_first in S as (s' & S); [eapply first_arg; eauto|]. intros Z.
      apply (arg_nonnil a []); auto. rewrite Z. constructor.
Qed.
Lemma count_ok : forall l (d : bool) ss, below (NCount l d) -> wf Ex (NCount l d) = true ->
  spelling ((if d then [Kw "distinct"] else []) ++ commas (map toks l) ++ [Id ")"]) ss ->
  forall r, count_call PI None (ss ++ r) = Ok (NCount l d, r).
Proof.
  intros l d ss IH H S r. rewrite wf_count in H. bools.
  assert (SL : Forall spec l) by (apply (below_list (NCount l d)); auto; intros x; auto).
  unfold count_call. destruct d; cbn [app] in S; sp; cbn [app next_req rbind].
  - rewrite (eqb_low _ _ _ H1). change (str_eqb "distinct" "distinct") with true. cbv iota. rewrite app_assoc3.
    rewrite (until_close_ok true []) by (eapply args_bl; eauto). cbn [rbind]. rewrite (args_ok l) by auto. reflexivity.
  - assert (B : bl true [] x) by (eapply args_bl; eauto).
    destruct (args_first l x) as (t & y & -> & F); auto.
    cbn [app next_req rbind]. assert (N := okf_nonnil _ _ F eq_refl).
    replace (str_eqb (lower t) "distinct") with false
      by (symmetry; apply str_eqb_neq; intros E; apply (okf_not _ ["distinct"] t F eq_refl); left; auto).
    rewrite app_assoc3. rewrite (until_close_first true []) by auto.
    cbn [rbind]. rewrite (args_ok l) by auto. reflexivity.
Qed.
Lemma arrayagg_ok : forall c d ign order limit ss, let n := NArrayAgg c d ign false order limit in
  below n -> wf Ex n = true ->
  spelling ((if d then [Kw "distinct"] else []) ++ toks c ++ (if ign then [Kw "ignore"; Kw "nulls"] else [])
      ++ match order with Some l => Kw "order" :: Kw "by" :: commas (map toks l) | None => [] end
      ++ match limit with Some z => [Kw "limit"; Num (Z.abs z)] | None => [] end ++ [Id ")"]) ss ->
  forall o r, array_agg_call PI None o (ss ++ r) = Ok (n, r).
Proof.
  intros c d ign order limit ss n IH H S o r. subst n. rewrite wf_arrayagg in H. bools.
  apply spelling_app in S as (sd & s1 & -> & SD & S). apply spelling_app in S as (sc & s2 & -> & SC & S).
  apply spelling_app in S as (si & s3 & -> & SI & S). apply spelling_app in S as (so & s4 & -> & SO & S).
  assert (SE : spec c) by (apply IH; cbn; lia).
  assert (B : bl false [")"; "ignore"; "respects"; "order"; "limit"] sc).
  { eapply bl_add; [apply (ex_bl4 c); auto; lia|]. intros x X. destruct X as [<-|X]; [right|left]; apply mem_In; [reflexivity|].
    repeat (destruct X as [<-|X]; [reflexivity|]). destruct X. }
  set (L3 := s4 ++ r). set (L2 := so ++ L3). set (L1 := si ++ L2).
  assert (E : (sd ++ sc ++ si ++ so ++ s4) ++ r = sd ++ sc ++ L1) by (unfold L1, L2, L3; rewrite !app_assoc; auto). rewrite E. clear E.
  assert (T3 : stopped ["limit"; ")"] L3 /\ olow_is (hd_error L3) "order" = false).
  { unfold L3. destruct limit as [z|]; sp; cbn [app hd_error stopped]; unfold olow_is; cbn [olower option_map opt_eqb].
    - match goal with E : lower _ = "limit" |- _ => rewrite E end. split; [left; auto|auto].
    - split; [right; left; auto|auto]. }
  assert (T2 : stopped ["order"; "limit"; ")"] L2 /\ olow_is (hd_error L2) "ignore" = false /\ olow_is (hd_error L2) "respect" = false).
  { unfold L2. destruct order as [l|]; sp; cbn [app hd_error stopped]; unfold olow_is; cbn [olower option_map opt_eqb].
    - match goal with E : lower _ = "order" |- _ => rewrite E end. split; [left; auto|auto].
    - destruct T3 as [T3 _]. destruct L3 as [|t L3]; [split; [exact I|auto]|]. cbn [hd_error stopped olower option_map opt_eqb] in *.
      destruct T3 as [<- |[<- |[]]]; cbn; auto 6. }
  assert (T1 : stopped [")"; "ignore"; "respects"; "order"; "limit"] L1).
  { unfold L1. destruct ign; sp; cbn [app stopped]; [match goal with E : lower _ = "ignore" |- _ => rewrite E end; cbn; auto|].
    destruct T2 as [T2 _]. destruct L2; cbn [stopped] in *; auto. cbn in T2 |- *. intuition. }
  assert (N2 : L2 <> []).
  { unfold L2, L3. apply app_r_nonnil, app_l_nonnil. eapply spelling_nonnil; [exact S|]. destruct limit; discriminate. }
  assert (X3 : forall A (k : option Z * option str * list str -> R A),
    rbind (if olow_is (hd_error L3) "limit" then
       '(t, ts) <- next_req None (tl L3) ;; n <- py_int t ;; '(t, ts) <- next_req None ts ;; Ok (Some n, Some t, ts)
     else Ok (None, hd_error L3, tl L3)) k = k (limit, Some ")", r)).
  { intros A k. unfold L3. destruct limit as [z|]; sp; cbn [app hd_error tl]; unfold olow_is; cbn [olower option_map opt_eqb].
    - match goal with E : lower _ = "limit" |- _ => rewrite E end. change (str_eqb "limit" "limit") with true. cbv iota. cbn [next_req rbind]. rewrite py_int_Z by auto. cbn [oall] in H0. apply Z.ltb_lt in H0.
      match goal with E : value _ = _ |- _ => rewrite E end. rewrite Z.abs_eq by lia. reflexivity.
    - reflexivity. }
  assert (X2 : forall A (k : option (list node) * option str * list str -> R A),
    rbind (if olow_is (hd_error L2) "order" then
       '(t, ts) <- next_req None (tl L2) ;;
       _ <- rassert (str_eqb (lower t) "by") ;;
       '(et, nt, ts) <- until_one_of None ["limit"; ")"] None [] ts ;;
       items <- orderby PI et ;;
       Ok (Some items, nt, ts)
     else Ok (None, hd_error L2, tl L2)) k = k (order, hd_error L3, tl L3)).
  { intros A k. unfold L2. destruct order as [l|]; sp; cbn [app hd_error tl].
    - cbn [oall] in H1. unfold olow_is; cbn [olower option_map opt_eqb]. match goal with E : lower _ = "order" |- _ => rewrite E end.
      change (str_eqb "order" "order") with true. cbv iota. cbn [next_req rbind].
      match goal with E : lower _ = "by" |- _ => rewrite E end. change (rassert (str_eqb "by" "by")) with (Ok tt). cbn [rbind].
      match goal with Q : spelling (commas _) ?u |- _ => assert (BI : bl false ["limit"; ")"] u); [|rewrite (uo0 false ["limit"; ")"] u) by (auto; tauto)] end.
      { eapply bl_add; [eapply items_bl; [|eauto]; unfold itemsok in H1; bools; auto|].
        intros z X. destruct X as [<-|[<-|[]]]; [left|right]; apply mem_In; reflexivity. }
      cbn [rbind]. rewrite (items_ok l) by (auto; apply (below_items _ l IH); intros z X; right; auto). reflexivity.
    - destruct T3 as [_ ->]. reflexivity. }
  assert (X1 : forall A (k : bool * bool * option str * list str -> R A),
    rbind (if olow_is (hd_error L1) "ignore" then
       '(t, ts) <- next_req None (tl L1) ;;
       _ <- rassert (str_eqb (lower t) "nulls") ;;
       '(t, ts) <- next_req None ts ;; Ok (true, false, Some t, ts)
     else if olow_is (hd_error L1) "respect" then
       '(t, ts) <- next_req None (tl L1) ;;
       _ <- rassert (str_eqb (lower t) "nulls") ;;
       '(t, ts) <- next_req None ts ;; Ok (false, true, Some t, ts)
     else Ok (false, false, hd_error L1, tl L1)) k = k (ign, false, hd_error L2, tl L2)).
  { intros A k. unfold L1. destruct ign; sp; cbn [app hd_error tl].
    - unfold olow_is; cbn [olower option_map opt_eqb]. match goal with E : lower _ = "ignore" |- _ => rewrite E end.
      change (str_eqb "ignore" "ignore") with true. cbv iota. cbn [next_req rbind].
      match goal with E : lower _ = "nulls" |- _ => rewrite E end. change (rassert (str_eqb "nulls" "nulls")) with (Ok tt). cbn [rbind].
      destruct L2 as [|t L2']; [congruence|reflexivity].
    - destruct T2 as (_ & -> & ->). reflexivity. }
  assert (Y : forall A (t : node * option str * list str -> R A), rbind (p_expr PI None (opts_until (o_until o)) sc) t = t (c, None, [])).
  { intros A t. change (opts_until (o_until o)) with (full true (o_until o)). rewrite (full_end c) by auto. reflexivity. }
  unfold array_agg_call. destruct d; sp; cbn [app].
  - cbn [next_req rbind]. rewrite (eqb_low _ _ _ H4). change (str_eqb "distinct" "distinct") with true. cbv iota.
    rewrite (uo0 false [")"; "ignore"; "respects"; "order"; "limit"] sc) by auto. cbn [rbind]. rewrite Y, X1, X2, X3. reflexivity.
  - destruct sc as [|t sc]; [exfalso; eapply spelling_nonnil; [exact SC|apply toks_nonnil; auto|auto]|].
    cbn [app next_req rbind]. destruct (first_in c t sc) as [F _]; auto.
    replace (str_eqb (lower t) "distinct") with false
      by (symmetry; apply str_eqb_neq; intros E; apply (okf_not _ ["distinct"] t F eq_refl); left; auto).
    rewrite (uof false [")"; "ignore"; "respects"; "order"; "limit"] t sc) by auto. cbn [rbind]. rewrite Y, X1, X2, X3. reflexivity.
Qed.
Lemma call_core : forall f ss, below f -> is_call f = true -> wf Ex f = true -> spelling (toks f) ss ->
  exists main rest, ss = main :: "(" :: rest /\ (forall o ts, expr_first PI None o main ts = Ok (None, None, ts))
    /\ forall o r, o_can_be_type o = false -> call0 PI None o main (rest ++ r) = Ok (f, r).
Proof.
  intros f ss IH C H S. destruct f; try discriminate C; cbn [toks] in S; unfold parens in S.
  - (* NFun *) rewrite wf_fun in H. bools. sp. exists name. eexists. split; [reflexivity|]. split; [intros; apply ident_first; auto|].
    intros o r O. unfold call0.
    rewrite !(proj2 (str_eqb_neq (lower name) _)) by (intros E; match goal with X : ~ In _ _ |- _ => apply X end; rewrite E; cbn; auto).
    unfold other_call. rewrite app_assoc3.
    assert (B : bl true [] x) by (eapply args_bl; eauto). rewrite (until_close_ok true []) by auto. cbn [rbind app].
    rewrite (bl_tt _ _ _ B), O. cbn [orb]. rewrite (args_ok args) by (auto; apply (below_list (NFun name args)); auto; intros z; auto). reflexivity.
  - (* NCast *) apply spelling_kw in S as (m & s & -> & E & S). apply spelling_id in S as (s' & -> & S). exists m, s'. split; auto.
    split; [intros; eapply kw_first; eauto|]. intros o r _. unfold call0. rewrite E. change (str_eqb "cast" "cast") with true. cbv iota.
    apply cast_ok; auto. rewrite <- app_assoc in S. auto.
  - (* NCount *) apply spelling_kw in S as (m & s & -> & E & S). apply spelling_id in S as (s' & -> & S). exists m, s'. split; auto.
    split; [intros; eapply kw_first; eauto|]. intros o r _. unfold call0. rewrite E. cbv iota.
    apply count_ok; auto. rewrite <- app_assoc in S. auto.
  - (* NArrayAgg *) apply spelling_kw in S as (m & s & -> & E & S). apply spelling_id in S as (s' & -> & S). exists m, s'. split; auto.
    split; [intros; eapply kw_first; eauto|]. intros o r _. unfold call0. rewrite E. cbv iota.
    assert (respect_nulls = false) by (rewrite wf_arrayagg in H; bools; auto). subst.
    apply arrayagg_ok; auto. rewrite <- !app_assoc in S. auto.
Qed.
Lemma call_eq : forall P eos o main ts, call P eos o main ts =
  ('(e, ts) <- call0 P eos o main ts ;;
   '(nt, ts) <- next_opt eos ts ;;
   if truthy nt && olow_is nt "filter" then
    '(t, ts) <- next_req eos ts ;;
    _ <- rassert (str_eqb t "(") ;;
    '(at_, ts) <- until_close eos None ts ;;
    match at_ with
    | [] => Err IndexError
    | w :: rest =>
      _ <- rassert (str_eqb (lower w) "where") ;;
      '(cond, _, _) <- p_expr P None (mk_eopts false false false [] None false) rest ;;
      '(nt, ts) <- next_opt eos ts ;;
      Ok (NFiltered e cond, nt, ts)
    end
  else Ok (e, nt, ts)).
Proof. reflexivity. Qed.

(** ** The head of an expression *)
Definition headok (n : node) : Prop := forall ss r o, spelling (toks n) ss -> o_can_be_type o = false ->
  nf ["("; "filter"; "from"] r -> (is_column n = true -> nf ["["] r) ->
  exists main rest, ss = main :: rest /\ expr_head PI None o main (rest ++ r) = Ok (n, hd_error r, tl r).
Lemma head_call : forall f, below f -> is_call f = true -> wf Ex f = true -> headok f.
Proof.
  intros f IH C H ss r o S O N _. destruct (call_core f ss IH C H S) as (m & rest & -> & F & K). exists m, ("(" :: rest). split; auto.
  unfold expr_head. rewrite F. cbn [rbind is_none app next_opt]. unfold expr_second. rewrite opt_eqb_refl. rewrite call_eq, K by auto.
  cbn [rbind]. rewrite next_hd. cbn [rbind]. rewrite (nf_is _ _ "filter" N), andb_false_r by (cbn; auto). reflexivity.
Qed.
Lemma head_filtered : forall f c, below (NFiltered f c) -> wf Ex (NFiltered f c) = true -> headok (NFiltered f c).
Proof.
  intros f c IH H ss r o S O N _. rewrite wf_filtered in H. bools. cbn [toks] in S. apply spelling_app in S as (s1 & s2 & -> & S1 & S).
  assert (IHf : below f) by (intros m M; apply IH; cbn; lia).
  destruct (call_core f s1 IHf H H2 S1) as (m & rest & -> & F & K). exists m. eexists. split; [reflexivity|].
  apply spelling_kw in S as (tf & s & -> & EF & S). unfold parens in S. apply spelling_id in S as (s' & -> & S). cbn [app] in S.
  apply spelling_kw in S as (tw & s'' & -> & EW & S). apply spelling_app in S as (u & v & -> & SC & S). sp.
  assert (B : bl true [] (tw :: u)).
  { apply bl_tok; auto; [split; [eapply word_plain; eauto|rewrite EW; apply mem_false; reflexivity]|]. eapply bl_weak; [apply (ex_bl4 c); eauto|auto|intros ? []]. }
  assert (SE : spec c) by (apply IH; cbn; lia).
  unfold expr_head. rewrite F. cbn [rbind is_none app next_opt]. unfold expr_second. rewrite opt_eqb_refl.
  rewrite <- app_assoc, call_eq, K by auto. cbn [rbind app next_opt]. rewrite (truthy_low _ _ EF eq_refl), (olow_low _ _ "filter" EF).
  change (true && str_eqb "filter" "filter") with true. cbv iota. cbn [next_req rbind]. change (rassert (str_eqb "(" "(")) with (Ok tt). cbn [rbind].
  rewrite app_assoc3. change (tw :: u ++ ")" :: [] ++ r) with ((tw :: u) ++ ")" :: r). rewrite (until_close_ok true []) by auto. cbn [rbind].
  rewrite EW. change (rassert (str_eqb "where" "where")) with (Ok tt). cbn [rbind].
  change (mk_eopts false false false [] None false) with (full false []). rewrite (full_end c) by auto. cbn [rbind]. rewrite next_hd. reflexivity.
Qed.
(** one-token heads *)
Lemma head_column : forall v, wf Ex (NColumn v) = true -> headok (NColumn v).
Proof.
  intros v H ss r o S O N N2. cbn [toks] in S. sp. exists v, []. split; auto. cbn [app].
  assert (F : expr_first PI None o v r = Ok (None, None, r)).
  { cbn in H. apply orb_true_iff in H as [H|H]; [apply ident_first; auto|]. bools. subst. reflexivity. }
  unfold expr_head. rewrite F. cbn [rbind is_none]. rewrite next_hd. cbn [rbind]. unfold expr_second.
  rewrite (nf_eq _ _ "(" N), (nf_is _ _ "from" N), O, !andb_false_r by (cbn; auto).
  rewrite (nf_eq _ _ "[" (N2 eq_refl)) by (cbn; auto).
  assert (M : str_eqb v "-" = false /\ mem (lower v) PREFIXES = false).
  { cbn in H. apply orb_true_iff in H as [H|H]; bools; [|subst; auto]. split.
    - apply str_eqb_neq. intros ->. discriminate H.
    - apply mem_false. apply ident_not; auto. }
  destruct M as [-> ->]. reflexivity.
Qed.
Lemma head_none : forall o main ts e r, expr_first PI None o main ts = Ok (Some e, None, r) -> expr_head PI None o main ts = Ok (e, hd_error r, tl r).
Proof. intros o main ts e r F. unfold expr_head. rewrite F. cbn [rbind is_none]. rewrite next_hd. reflexivity. Qed.
Lemma head_some : forall o main ts e r, expr_first PI None o main ts = Ok (Some e, hd_error r, tl r) -> expr_head PI None o main ts = Ok (e, hd_error r, tl r).
Proof. intros o main ts e r F. unfold expr_head. rewrite F. destruct r; reflexivity. Qed.
Lemma kw_facts : forall t k, lower t = k -> existsb is_lower_c k = true ->
  mem t QUOTES = false /\ isdigit t = false /\ isdigit (no_dots t) = false /\ str_eqb t "(" = false /\ str_eqb t "[" = false.
Proof.
  intros t k E L. assert (M := word_plain t k E L). rewrite <- E in L. destruct (letter_nodigit t L) as [D1 D2]. repeat split; auto.
  - apply mem_false; intros X; apply M; revert X; apply inclb_ok; reflexivity.
  - apply str_eqb_neq; intros ->; apply M; left; auto.
  - apply str_eqb_neq; intros ->; apply M; right; right; left; auto.
Qed.
Lemma head_null : headok NNull.
Proof.
  intros ss r o S O N _. cbn [toks] in S. sp. eexists. eexists. split; [reflexivity|]. cbn [app]. apply head_none.
  destruct (kw_facts _ _ H eq_refl) as (A & B & C & _). unfold expr_first. rewrite A, B, C, H. reflexivity.
Qed.
Lemma head_bool : forall b, headok (NBool b).
Proof.
  intros b ss r o S O N _. cbn [toks] in S. sp. eexists. eexists. split; [reflexivity|]. cbn [app]. apply head_none.
  destruct (kw_facts _ _ H) as (A & B & C & _); [destruct b; reflexivity|]. unfold expr_first. rewrite A, B, C, H. destruct b; reflexivity.
Qed.
Lemma num_marks : forall v L, forallb numc v = true -> forallb (fun x => negb (forallb numc x)) L = true -> mem v L = false.
Proof.
  intros v L H C. apply mem_false. intros I. rewrite forallb_forall in C. apply C in I. rewrite H in I. discriminate.
Qed.
Lemma head_int : forall z, headok (NInt z).
Proof.
  intros z ss r o S O N _. cbn [toks] in S. destruct (Z.ltb_spec z 0); sp.
  - eexists. eexists. split; [reflexivity|]. cbn [app]. rename x0 into d, H0 into D, H1 into V. rewrite <- isdigit_value in V by auto. unfold expr_head.
    change (expr_first PI None o "-" (d :: r)) with (@Ok (option node * option str * list str) (None, None, d :: r)).
    cbn [rbind is_none next_opt]. unfold expr_second. cbn [opt_eqb].
    assert (M := num_marks d ["("; "["] (digit_num d D) eq_refl). cbn [mem existsb] in M. apply orb_false_iff in M as [M1 M2].
    rewrite orb_false_r in M2. rewrite M1, M2, O, andb_false_r, D. rewrite next_hd. cbn [rbind andb].
    change (mem (lower "-") PARTS) with false. change (str_eqb "-" "-") with true. cbn [andb]. rewrite V. cbn [rbind]. rewrite Z.opp_involutive. reflexivity.
  - eexists. eexists. split; [reflexivity|]. cbn [app]. rename H0 into D. assert (V := isdigit_value _ D). apply head_none.
    unfold expr_first. rewrite (num_marks _ QUOTES (digit_num _ D) eq_refl), D, V. reflexivity.
Qed.
Lemma float_facts : forall t, float_ok t = true ->
  isdigit t = false /\ isdigit (no_dots t) = true /\ float_text t = Ok t.
Proof.
  intros t H. unfold float_ok in H. bools. repeat split; auto.
  - destruct t as [|c t]; auto. unfold isdigit. apply not_true_is_false. intros F. rewrite forallb_forall in F.
    apply has_In in H. apply F in H. discriminate.
  - destruct (float_text t) eqn:E; [|discriminate]. bools. subst. auto.
Qed.
Lemma head_float : forall t, wf Ex (NFloat t) = true -> headok (NFloat t).
Proof.
  intros t H ss r o S O N _. destruct t as [|c t]; [discriminate H|]. cbn [wf] in H. cbn [toks] in S. destruct (N.eqb_spec c 45) as [->|E].
  - sp. eexists. eexists. split; [reflexivity|]. cbn [app]. destruct (float_facts t H) as (D1 & D2 & T). unfold expr_head.
    change (expr_first PI None o "-" (t :: r)) with (@Ok (option node * option str * list str) (None, None, t :: r)).
    cbn [rbind is_none next_opt]. unfold expr_second. cbn [opt_eqb].
    assert (M := num_marks t ["("; "["] (float_num t H) eq_refl). cbn [mem existsb] in M. apply orb_false_iff in M as [M1 M2].
    rewrite orb_false_r in M2. rewrite M1, M2, O, andb_false_r, D1, D2, T. change (mem (lower "-") PARTS) with false.
    change (str_eqb "-" "-") with true. cbn [andb rbind]. rewrite next_hd. reflexivity.
  - assert (X : forall A (a b : A), match c with 45%N => a | _ => b end = b).
    { intros. destruct c as [|c]; auto. repeat (destruct c as [c|c|]; auto). congruence. }
    rewrite X in H, S. sp. eexists. eexists. split; [reflexivity|]. cbn [app]. destruct (float_facts _ H) as (D1 & D2 & T).
    apply head_none. unfold expr_first. rewrite (num_marks _ QUOTES (float_num _ H) eq_refl), D1, D2, T. reflexivity.
Qed.
Lemma string_ok : forall v q x r, In q QUOTES -> content v = true ->
  spelling (match v with [] => [] | _ => [Id v] end ++ [Id q]) x -> string_parse None (x ++ r) q None = Ok (NString v q None, r).
Proof.
  intros v q x r Q C S. unfold string_parse. destruct v as [|c v]; sp; cbn [app next_opt next_req rbind opt_eqb].
  - rewrite str_eqb_refl. auto.
  - rewrite str_eqb_refl. replace (str_eqb (c :: v) q) with false; auto. symmetry. apply str_eqb_neq. intros <-.
    unfold content in C. bools. destruct Q as [Q|[Q|[Q|[]]]]; rewrite <- Q in H; discriminate H.
Qed.
Lemma head_string : forall v q p, wf Ex (NString v q p) = true -> headok (NString v q p).
Proof.
  intros v q p H ss r o S O N _. cbn [wf] in H. destruct p; [discriminate|]. bools. cbn [toks] in S. apply spelling_id in S as (x & -> & S).
  exists q, x. split; auto. apply head_none. unfold expr_first. assert (M : mem q QUOTES = true) by (apply mem_In; auto). rewrite M.
  rewrite (string_ok v) by auto. reflexivity.
Qed.
Lemma head_paren : forall l, below (NParen l) -> wf Ex (NParen l) = true -> headok (NParen l).
Proof.
  intros l IH H ss r o S O N _. rewrite wf_paren in H. cbn [toks] in S. unfold parens in S. apply spelling_id in S as (x & -> & S).
  apply spelling_app in S as (u & v & -> & U & S). sp. exists "(", (u ++ [")"]). split; auto. rewrite app_assoc3. cbn [app].
  apply head_none. change (expr_first PI None o "(" (u ++ ")" :: r)) with
    ('(at_, ts) <- until_close None None (u ++ ")" :: r) ;; args <- exprlist PI false at_ ;; Ok (Some (NParen args), @None str, ts)).
  rewrite (until_close_ok true []) by (eapply args_bl; eauto). cbn [rbind].
  rewrite (args_ok l) by (auto; apply (below_list (NParen l)); auto; intros z; auto). reflexivity.
Qed.
Lemma head_array : forall l, below (NArray l) -> wf Ex (NArray l) = true -> headok (NArray l).
Proof.
  intros l IH H ss r o S O N _. rewrite wf_array in H. cbn [toks] in S. unfold brackets in S. apply spelling_id in S as (x & -> & S).
  apply spelling_app in S as (u & v & -> & U & S). sp. exists "[", (u ++ ["]"]). split; auto. rewrite app_assoc3. cbn [app].
  apply head_some. change (expr_first PI None o "[" (u ++ "]" :: r)) with
    ('(at_, nt, ts) <- until_one_of None ["]"] None [] (u ++ "]" :: r) ;; _ <- rassert (opt_eqb nt "]") ;;
    args <- exprlist PI false at_ ;; '(nt, ts) <- next_opt None ts ;; Ok (Some (NArray args), nt, ts)).
  assert (B : bl true ["]"] u) by (eapply args_bl0; eauto).
  rewrite (uo0 true ["]"] u) by (auto; left; auto). cbn [rbind hd_error tl]. change (rassert (opt_eqb (Some "]") "]")) with (Ok tt). cbn [rbind].
  rewrite (args_ok l) by (auto; apply (below_list (NArray l)); auto; intros z; auto). cbn [rbind]. rewrite next_hd. reflexivity.
Qed.
Lemma head_index : forall v l, below (NIndex (NColumn v) l) -> wf Ex (NIndex (NColumn v) l) = true -> headok (NIndex (NColumn v) l).
Proof.
  intros v l IH H ss r o S O N _. rewrite wf_index in H. bools. cbn [toks] in S. unfold brackets in S. cbn [app] in S.
  apply spelling_id in S as (y & -> & S). apply spelling_id in S as (x & -> & S).
  apply spelling_app in S as (u & w & -> & U & S). sp. exists v, ("[" :: u ++ ["]"]). split; auto. cbn [app]. rewrite app_assoc3. cbn [app].
  assert (F : forall ts, expr_first PI None o v ts = Ok (None, None, ts)).
  { intros ts. cbn in H. apply orb_true_iff in H as [H|H]; [apply ident_first; auto|]. bools. subst. reflexivity. }
  unfold expr_head. rewrite F. cbn [rbind is_none next_opt]. unfold expr_second.
  assert (B : bl true ["]"] u) by (eapply args_bl0; eauto).
  change (opt_eqb (Some "[") "(") with false. change (olow_is (Some "[") "from") with false. change (opt_eqb (Some "[") "[") with true.
  rewrite O, !andb_false_r. cbv iota.
  rewrite (uo0 true ["]"] u) by (auto; left; auto). cbn [rbind hd_error tl].
  rewrite (args_ok l) by (auto; apply (below_list (NIndex (NColumn v) l)); auto; intros z Z; right; auto). cbn [rbind]. rewrite next_hd. reflexivity.
Qed.
(** ** CASE *)
Definition when_toks (ws : list (node * node)) (els : option node) : list tok :=
  flat_map (fun wt => Kw "when" :: toks (fst wt) ++ Kw "then" :: toks (snd wt)) ws
  ++ match els with Some x => Kw "else" :: toks x | None => [] end.
Definition wspec (wt : node * node) : Prop := spec (fst wt) /\ spec (snd wt).
Lemma when_stop : forall ws els w, spelling (when_toks ws els) w -> stopped ["when"; "else"] w.
Proof.
  intros ws els w S. unfold when_toks in S. destruct ws as [|a ws]; cbn [flat_map app] in S.
  - destruct els; sp; cbn [stopped]; auto. right. left. auto.
  - sp. cbn [stopped]. left. auto.
Qed.
Lemma case_loop_ok : forall ws els acc w k, Forall wspec ws -> forallb wtok ws = true ->
  (forall x, els = Some x -> spec x /\ upto 4 x = true) ->
  spelling (when_toks ws els) w -> length ws + length (olist els) < k ->
  case_loop PI k (hd_error w) (tl w) acc None = Ok (acc ++ ws, els).
Proof.
  intros ws els acc w k P. revert acc w k. induction P as [|[a b] ws A B IH]; intros acc w k H E S L.
  - rewrite app_nil_r. unfold when_toks in S. cbn [flat_map app] in S. destruct k as [|k]; [lia|]. destruct els as [x|].
    + apply spelling_kw in S as (t & s & -> & T & S). cbn [hd_error tl case_loop]. rewrite (truthy_low _ _ T eq_refl), !(olow_low _ _ _ T).
      change (str_eqb "else" "when") with false. change (str_eqb "else" "else") with true. cbv iota.
      destruct (E x eq_refl) as [SX W]. bools. rewrite (uo0_end false STOPS s) by (auto; apply (ex_bl4 x); auto). cbn [rbind].
      change opts0 with (full true []). rewrite (full_end x) by auto. cbn [rbind]. destruct k as [|k]; [cbn in L; lia|]. reflexivity.
    + sp. reflexivity.
  - cbn [forallb] in H. bools. unfold wtok in H. cbn [fst snd] in H. bools. destruct A as [SA SB]. cbn [fst snd] in SA, SB.
    unfold when_toks in S. cbn [flat_map fst snd app] in S. apply spelling_kw in S as (t & s & -> & T & S).
    rewrite <- !app_assoc in S. apply spelling_app in S as (sa & s2 & -> & SAa & S). cbn [app] in S. apply spelling_kw in S as (th & s3 & -> & TH & S).
    apply spelling_app in S as (sb & w & -> & SBb & S). change (spelling (when_toks ws els) w) in S.
    destruct k as [|k]; [lia|]. cbn [hd_error tl case_loop]. rewrite (truthy_low _ _ T eq_refl), !(olow_low _ _ _ T).
    change (str_eqb "when" "when") with true. cbv iota.
    assert (BA : bl false STOPS sa) by (apply (ex_bl4 a); auto).
    rewrite (uo0 false STOPS sa) by (auto; left; auto). cbn [rbind tl].
    change opts0 with (full true []). rewrite (full_end a) by auto. cbn [rbind].
    assert (BB : bl false STOPS sb) by (apply (ex_bl4 b); auto; lia). assert (W := when_stop _ _ _ S).
    rewrite (uo0 false STOPS sb) by auto. cbn [rbind]. rewrite (full_end b) by (auto; lia). cbn [rbind].
    rewrite IH by (auto; cbn [length] in L; lia). rewrite <- app_assoc. reflexivity.
Qed.
Lemma when_len : forall ws els, length ws + length (olist els) <= length (when_toks ws els).
Proof.
  intros ws els. unfold when_toks. rewrite app_length. apply Nat.add_le_mono.
  - induction ws as [|a ws IH]; auto. cbn [flat_map]. cbn [app length]. rewrite app_length. cbn [length]. lia.
  - destruct els; cbn; lia.
Qed.
Lemma starts_first : forall L ts t s, forallb (fun x => negb (forallb numc x)) L = true -> starts_with L ts = false -> spelling ts (t :: s) -> ~ In (lower t) L.
Proof.
  intros L ts t s C H S. destruct ts as [|[k|i|z] ts]; inversion S; subst; cbn in *; subst; try (apply mem_false; auto; fail).
  destruct H3 as [D _]. apply digit_num in D. rewrite num_lower by auto. intros X. rewrite forallb_forall in C. apply C in X. rewrite D in X. discriminate.
Qed.
Lemma head_case : forall e ws els, below (NCase e ws els) -> wf Ex (NCase e ws els) = true -> headok (NCase e ws els).
Proof.
  intros e ws els IH H ss r o S O N _. assert (H0 := H). rewrite wf_case in H. bools. cbn [toks] in S.
  apply spelling_kw in S as (c & s & -> & C & S). rewrite (app_assoc (flat_map _ _)) in S.
  change (spelling (match e with Some x => toks x | None => [] end ++ when_toks ws els ++ [Kw "end"]) s) in S.
  apply spelling_app in S as (se & s' & -> & SE & S). apply spelling_app in S as (w & s'' & -> & W & S). apply spelling_kw in S as (en & z & -> & EN & S). sp.
  assert (PW : Forall wspec ws).
  { apply Forall_forall. intros [a b] I. split; apply IH, children_size; cbn [children fst snd]; apply in_or_app; right; apply in_or_app; [left|right; apply in_or_app; left];
    [apply (in_map fst) in I|apply (in_map snd) in I]; auto. }
  assert (PE : forall x, els = Some x -> spec x /\ upto 4 x = true).
  { intros x ->. split; auto. apply IH, children_size. cbn [children]. apply in_or_app; right; apply in_or_app; right; apply in_or_app; right. left; auto. }
  assert (BW : bl false (minus STOPS WTE) w).
  { revert W. unfold when_toks. apply blt_app.
    - apply (bt_whens (NCase e ws els)); auto; try (intros m _; apply bl_all).
      + intros x X. cbn [children]. apply in_or_app; right; apply in_or_app; left. auto.
      + intros x X. cbn [children]. apply in_or_app; right; apply in_or_app; right; apply in_or_app; left. auto.
    - destruct els as [x|]; [|apply blt_nil]. destruct (PE x eq_refl) as [_ X]. bools. apply blt_kw; [reflexivity|].
      intros u U. eapply bl_weak; [apply (ex_bl4 x); auto|auto|apply minus_incl]. }
  assert (BE : bl false STOPS se).
  { destruct e as [x|]; [|sp; apply bl_nil]. cbn [oall] in H. bools. apply (ex_bl4 x); auto. }
  assert (B : bl false ["end"] (se ++ w)).
  { eapply bl_add; [apply bl_app; [eapply bl_weak; [exact BE|auto|apply (minus_incl STOPS WTE)]|exact BW]|].
    intros x [<-|[]]. right. apply mem_In. reflexivity. }
  exists c. eexists. split; [reflexivity|]. rewrite app_assoc. rewrite app_assoc3. apply head_some.
  destruct (kw_facts _ _ C eq_refl) as (F1 & F2 & F3 & F4 & F5). unfold expr_first. rewrite F1, F2, F3, F4, F5, C.
  change (mem "case" BOOLEAN_VALUES) with false. change (mem "case" NULL_VALUES) with false. change (str_eqb "case" "not") with false.
  change (str_eqb "case" "case") with true. cbv iota. rewrite (uo0 false ["end"] (se ++ w)) by (auto; left; auto). cbn [rbind hd_error tl app].
  rewrite (olow_low _ _ _ EN). change (rassert (str_eqb "end" "end")) with (Ok tt). cbn [rbind]. rewrite next_hd. cbn [rbind].
  assert (L := when_len ws els). rewrite <- (spelling_len _ _ W) in L.
  assert (K : case_parse PI (se ++ w) = Ok (NCase e ws els)).
  { unfold case_parse. destruct e as [x|].
    - cbn [oall] in H. bools. destruct se as [|t se]; [exfalso; eapply spelling_nonnil; [exact SE|apply toks_nonnil; auto|auto]|].
      cbn [app next_req rbind]. destruct (first_in x t se) as [F _]; auto.
      replace (str_eqb (lower t) "when") with false
        by (symmetry; apply str_eqb_neq; intros E; apply (okf_not _ ["when"] t F eq_refl); left; auto).
      assert (T : ~ In (lower t) ["case"]) by (eapply starts_first; eauto).
      assert (WS : stopped ["when"] w).
      { destruct ws as [|a ws]; [discriminate H3|]. unfold when_toks in W. cbn [flat_map app] in W. sp. left. auto. }
      rewrite (uof false STOPS t se) by (auto; right; intros Q; apply T; left; auto). cbn [rbind].
      change opts0 with (full true []). rewrite (full_end x) by (auto; apply IH, children_size; left; auto). cbn [rbind].
      rewrite (case_loop_ok ws els []) by (auto; destruct w; cbn [tl length] in *; lia). reflexivity.
    - sp. cbn [app]. destruct ws as [|a ws]; [discriminate H3|]. destruct w as [|t w]; [unfold when_toks in W; cbn [flat_map app] in W; inversion W|].
      cbn [next_req rbind]. assert (T : lower t = "when") by (unfold when_toks in W; cbn [flat_map app] in W; inversion W; auto). rewrite T.
      change (str_eqb "when" "when") with true. cbv iota. assert (X := case_loop_ok (a :: ws) els [] (t :: w) (S (S (length w))) PW H2 PE W).
      cbn [hd_error tl] in X. rewrite X by (cbn [length] in *; lia). reflexivity. }
  rewrite K. reflexivity.
Qed.
Lemma head_ok : forall n, below n -> wf Ex n = true -> lvl n = 0 -> is_over n = false -> headok n.
Proof.
  intros n IH H L V. destruct n; try discriminate H; try discriminate L; try discriminate V.
  - apply head_call; auto.
  - apply head_call; auto.
  - apply head_call; auto.
  - apply head_call; auto.
  - apply head_filtered; auto.
  - apply head_column; auto.
  - apply head_string; auto.
  - apply head_int; auto.
  - apply head_float; auto.
  - apply head_null; auto.
  - apply head_bool; auto.
  - apply head_paren; auto.
  - apply head_array; auto.
  - destruct n; try discriminate L. apply head_index; auto.
  - apply head_case; auto.
Qed.
