(** The parser inverts [toks] on the grammar fragment: FROM clauses and statements. *)
From Verif Require Import PyStr Lib Digits AstLib PyFloat Tokeniser Ast Parser Api ProofTerm ProofFuel Ideal Grammar Scan GramTok GramExpr GramHead GramTail.
Local Open Scope str_scope.
Local Open Scope list_scope.

Lemma stopped_app : forall L a b, stopped L a -> stopped L b -> stopped L (a ++ b).
Proof. intros L [|t a] b A B; auto. Qed.
Lemma stopped_weak : forall L L' r, stopped L r -> incl L L' -> stopped L' r.
Proof. intros L L' [|t r] H I; cbn in *; auto. Qed.
Lemma stopped_nf : forall L F r, stopped L r -> forallb (fun x => negb (mem x F)) L = true -> nf F r.
Proof. intros L F [|t r] H D; [apply nf_nil|]. eapply nf_in; eauto. Qed.

(** ** First token of a FROM *)
Definition FFIRST : list str := ["("; "["; "'"; """"; "`"; "unnest"].
Lemma from_nonnil : forall n, wf Fr n = true -> toks n <> [].
Proof.
  intros n. induction n as [n IH] using node_ind'. intros H. destruct n; try discriminate H; cbn [toks]; try discriminate.
  - rewrite wf_falias in H. bools. apply app_l_nonnil. apply IH; auto. left; auto.
  - rewrite wf_table in H. destruct brackets; [discriminate|]. unfold tableok in H. bools. apply toks_nonnil. auto.
  - rewrite wf_unnest in H. bools. apply app_l_nonnil. destruct n; try discriminate H; try discriminate. destruct n; try discriminate H; discriminate.
  - rewrite wf_join in H. bools. apply app_l_nonnil. apply IH; auto. left; auto.
  - rewrite wf_combined in H. bools. apply app_l_nonnil. apply IH; auto. left; auto.
Qed.
Lemma starts_ident_first : forall ts t s, starts_ident ts = true -> spelling ts (t :: s) -> ident t = true.
Proof. intros [|[k|i|z] ts] t s H S; try discriminate H. apply spelling_id in S as (x & E & _). injection E as -> _. exact H. Qed.
Lemma from_first : forall n t s, wf Fr n = true -> spelling (toks n) (t :: s) -> ident t = true \/ In (lower t) FFIRST.
Proof.
  intros n. induction n as [n IH] using node_ind'. intros t s H S.
  assert (A : forall e b, In e (children n) -> wf Fr e = true -> spelling (toks e ++ b) (t :: s) -> ident t = true \/ In (lower t) FFIRST).
  { intros e b I W X. apply app_first in X as (s' & X); [eapply IH; eauto|apply from_nonnil; auto]. }
  destruct n; try discriminate H.
  - cbn [toks] in S. apply spelling_id in S as (? & E & _). injection E as -> _. right. left. auto.
  - rewrite wf_falias in H. bools. cbn [toks] in S. eapply A; [left; reflexivity| |exact S]. auto.
  - rewrite wf_table in H. cbn [toks] in S. destruct brackets.
    + apply spelling_id in S as (? & E & _). injection E as -> _. right. right. left. auto.
    + unfold tableok in H. bools.
      assert (Q : forall v q p b, wf Ex (NString v q p) = true -> spelling (toks (NString v q p) ++ b) (t :: s) -> In (lower t) FFIRST).
      { intros v q p b W X. cbn [wf] in W. destruct p; [discriminate|]. bools. cbn [toks app] in X. apply spelling_id in X as (? & E & _). injection E as -> _.
        match goal with Q : In q QUOTES |- _ => destruct Q as [<-|[<-|[<-|[]]]] end; cbn; auto 6. }
      destruct n; try (left; apply andb_true_iff in H0 as [_ H0]; eapply starts_ident_first; eauto; fail).
      * destruct n1; try (left; apply andb_true_iff in H0 as [_ H0]; eapply starts_ident_first; eauto; fail).
        rewrite wf_chained in H. bools. right. eapply Q; eauto.
      * right. eapply Q; eauto. rewrite app_nil_r. exact S.
  - rewrite wf_unnest in H. bools. cbn [toks] in S.
    assert (U : exists x, spelling (Kw "unnest" :: x) (t :: s)).
    { destruct n; try discriminate H; [|destruct n; try discriminate H]; eexists; exact S. }
    destruct U as (x & U). apply spelling_kw in U as (? & ? & E & L & _). injection E as -> _. right. rewrite L. cbn; auto 9.
  - rewrite wf_join in H. bools. cbn [toks] in S. eapply A; [left; reflexivity| |exact S]. auto.
  - rewrite wf_combined in H. bools. cbn [toks] in S. eapply A; [left; reflexivity| |exact S]. auto.
Qed.
Lemma ffirst_not : forall t X, ident t = true \/ In (lower t) FFIRST -> forallb (fun x => unword x && negb (mem x FFIRST)) X = true -> ~ In (lower t) X.
Proof.
  intros t X [H|H] F I; rewrite forallb_forall in F.
  - revert I. apply ident_not; auto. apply forallb_forall. intros x I. apply F in I. bools. auto.
  - apply F in I. bools. auto.
Qed.

(** ** One item of a FROM and its alias *)
Definition ENDS : list str := JOIN_VALUES ++ SET_OPERATORS.
Definition fia (ts : list str) : R (node * option str * list str) :=
  '(e, nt, ts) <- from_item PI ts ;;
  match nt with
  | Some t =>
    if negb (mem (lower t) JOIN_VALUES) && negb (mem (lower t) SET_OPERATORS)
    then from_alias e t ts else Ok (e, nt, ts)
  | None => Ok (e, nt, ts)
  end.
Lemma from_eq : forall ts, p_from PI ts =
  ('(e, nt, ts) <- fia ts ;;
   '(e, nt, ts) <- set_loop PI (S (length ts)) e nt ts ;;
   '(e, nt, ts) <- join_loop PI (S (length ts)) e nt ts ;;
   Ok e).
Proof. intros ts. rewrite PI_from. unfold from_body, fia. destruct (from_item PI ts) as [[[e nt] t]|]; reflexivity. Qed.
Lemma als_ok : forall e a (w : bool) ss r, alsok a = true ->
  spelling ((if w then [Kw "as"] else []) ++ match a with inl t => [Id t] | inr x => toks x end) ss ->
  exists t s, ss = t :: s /\ ~ In (lower t) (ENDS ++ ["with"]) /\ nf F0 (t :: s)
    /\ from_alias e t (s ++ r) = Ok (NAlias e a w, hd_error r, tl r).
Proof.
  intros e a w ss r A S.
  assert (X : forall ss, spelling (match a with inl t => [Id t] | inr x => toks x end) ss -> exists t s, ss = t :: s
     /\ ~ In (lower t) ("as" :: ENDS ++ ["with"]) /\ nf F0 (t :: s)
     /\ (if mem t QUOTES then '(x, ts) <- string_parse None (s ++ r) t None ;; Ok (@inr str node x, ts) else Ok (@inl str node t, s ++ r)) = Ok (a, r)).
  { clear ss S. intros ss S. destruct a as [t|x]; cbn [alsok] in A.
    - apply spelling_id in S as (s & -> & S). apply spelling_nil in S. subst s. exists t, []. split; auto. split; [apply ident_not; auto|].
      split; [apply (ident_not F0 t); auto|]. replace (mem t QUOTES) with false; auto. symmetry. apply mem_false. intros Z. apply (ident_marks t A).
      revert Z. apply inclb_ok. reflexivity.
    - bools. destruct (wf_str x H H0) as (v & q & -> & Q & C). cbn [toks] in S. apply spelling_id in S as (s & -> & S). exists q, s. split; auto.
      split; [destruct Q as [<-|[<-|[<-|[]]]]; apply mem_false; reflexivity|].
      split; [destruct Q as [<-|[<-|[<-|[]]]]; eapply nf_low; reflexivity|].
      replace (mem q QUOTES) with true by (symmetry; apply mem_In; auto). rewrite (string_ok v q s r) by auto. reflexivity. }
  destruct w; cbn [app] in S.
  - apply spelling_kw in S as (t & s & -> & T & S). destruct (X s S) as (t' & s' & -> & N & F & E). exists t, (t' :: s'). split; auto.
    split; [rewrite T; apply mem_false; reflexivity|]. split; [eapply nf_low; eauto|]. unfold from_alias. rewrite T.
    change (str_eqb "as" "as") with true. cbv iota. cbn [app next_req rbind]. rewrite E. cbn [rbind]. rewrite next_hd. reflexivity.
  - destruct (X ss S) as (t & s & -> & N & F & E). exists t, s. split; auto. split; [intros Z; apply N; right; auto|]. split; auto.
    unfold from_alias. replace (str_eqb (lower t) "as") with false by (symmetry; apply str_eqb_neq; intros Z; apply N; left; auto). cbn [rbind]. rewrite E. cbn [rbind].
    rewrite next_hd. reflexivity.
Qed.
Lemma not_stmt : forall t s, ident t = true \/ In (lower t) FFIRST -> p_stmt PI None (t :: s) = Err (ParsingError []).
Proof.
  intros t s F. rewrite PI_stmt by apply eok_none. unfold stmt_body. cbn [next_req rbind].
  replace (str_eqb (lower t) "select") with false by (symmetry; apply str_eqb_neq; intros Z; apply (ffirst_not t ["select"] F eq_refl); left; auto).
  replace (str_eqb (lower t) "with") with false by (symmetry; apply str_eqb_neq; intros Z; apply (ffirst_not t ["with"] F eq_refl); left; auto).
  reflexivity.
Qed.
Lemma closed_ok : forall n ss r, below n -> wf Fr n = true -> closed_item n = true -> spelling (toks n) ss -> nf F0 r ->
  from_item PI (ss ++ r) = Ok (n, hd_error r, tl r).
Proof.
  intros n ss r IH H C S N. destruct n; try discriminate C.
  - destruct args as [|f [|? ?]]; try discriminate H. cbn [toks map commas] in S. unfold parens in S.
    apply spelling_id in S as (s & -> & S). apply spelling_app in S as (u & v & -> & U & S). apply spelling_id in S as (w & -> & S). apply spelling_nil in S. subst w.
    assert (Sf : spec f) by (apply IH; cbn; lia). unfold from_item. cbn [app next_req rbind]. change (str_eqb "(" "(") with true. cbv iota. rewrite app_assoc3. cbn [app].
    assert (B : bl true [] u).
    { cbn [wf] in H. destruct (is_sel f || is_wth f); [apply (proj2 (proj2 (bl_all f)))|apply (proj1 (proj2 (bl_all f)))]; auto; left; auto. }
    rewrite (until_close_ok true []) by auto. cbn [rbind].
    assert (X : match p_stmt PI None u with Err (ParsingError _) => p_from PI u | r0 => r0 end = Ok f).
    { cbn [wf] in H. destruct (is_sel f || is_wth f).
      - rewrite (s_stmt f Sf) by auto. reflexivity.
      - destruct u as [|t u]; [exfalso; eapply spelling_nonnil; [exact U|apply from_nonnil; auto|auto]|].
        rewrite not_stmt by (eapply from_first; eauto). apply (s_from f Sf); auto. }
    rewrite X. cbn [rbind]. rewrite next_hd. reflexivity.
  - rewrite wf_table in H. destruct brackets.
    + bools. cbn [toks] in S. unfold Grammar.brackets in S. apply spelling_id in S as (s & -> & S). apply spelling_app in S as (u & v & -> & U & S).
      apply spelling_id in S as (w & -> & S). apply spelling_nil in S. subst w.
      assert (Sn : spec n) by (apply IH; cbn; lia). unfold from_item. cbn [app next_req rbind].
      change (str_eqb "[" "(") with false. change (mem "[" QUOTES) with false. change (str_eqb "[" "[") with true. cbv iota. rewrite app_assoc3. cbn [app].
      assert (B : bl true ["]"] u).
      { apply bl_base; [|reflexivity]. eapply bl_weak; [apply (ex_bl4 n); auto|auto|intros ? []]. }
      rewrite (uo0 true ["]"]) by (auto; left; auto). cbn [rbind hd_error tl].
      rewrite (s_arg n Sn) by (auto; eapply (upto_arg n 4); auto). cbn [rbind]. change (opt_eqb (Some "]") "]") with true. cbn [rassert rbind]. rewrite next_hd. reflexivity.
    + unfold tableok in H. bools.
      assert (Q : forall v q p s r, wf Ex (NString v q p) = true -> spelling (toks (NString v q p)) s -> nf ["."] r \/ (exists x, r = "." :: x) ->
        exists s', s = q :: s' /\ from_item PI (s ++ r) = ('(name, nt, ts) <- table_dot_loop PI (Datatypes.S (length (tl r))) (NString v q p) (hd_error r) (tl r) ;; Ok (NTable name false, nt, ts))).
      { clear. intros v q p s r H S N. cbn [wf] in H. destruct p; [discriminate|]. bools. cbn [toks] in S. apply spelling_id in S as (x & -> & S).
        exists x. split; auto. unfold from_item. cbn [app next_req rbind].
        replace (str_eqb q "(") with false by (destruct H as [<-|[<-|[<-|[]]]]; reflexivity).
        replace (mem q QUOTES) with true by (symmetry; apply mem_In; auto). rewrite (string_ok v) by auto. cbn [rbind]. rewrite next_hd. reflexivity. }
      destruct n; try discriminate C.
      * destruct n1; try discriminate C. rewrite wf_chained in H. bools. cbn [toks] in S. apply spelling_app in S as (s1 & s2 & -> & S1 & S). apply spelling_id in S as (s' & -> & S).
        assert (S2 : spec n2) by (apply IH; cbn; lia).
        destruct (Q _ _ _ s1 ("." :: s' ++ r) ltac:(eassumption) S1 ltac:(eauto)) as (x & -> & E). rewrite <- app_assoc. eapply eq_trans; [exact E|].
        assert (L2 : lvl n2 <= 1 \/ is_index n2 = true) by (match goal with Q : _ || _ = true |- _ => apply orb_true_iff in Q as [Q|Q] end; bools; auto).
        assert (W2 : wf Ex n2 = true) by assumption.
        cbn [hd_error tl table_dot_loop]. rewrite opt_eqb_refl. change (mk_eopts false false true [] None true) with (opts_ch []).
        rewrite (s_ch n2 S2 W2 L2 [] s' r) by (auto; exact I). cbn [rbind].
        destruct (F0_parts r N) as (_ & _ & N3). assert (O : opt_eqb (hd_error r) "." = false) by (apply (nf_eq ["."]); [assumption|left; reflexivity|reflexivity]).
        destruct (length (s' ++ r)); cbn [table_dot_loop]; rewrite O; reflexivity.
      * destruct (F0_parts r N) as (_ & _ & N3). assert (O : opt_eqb (hd_error r) "." = false) by (apply (nf_eq ["."]); [assumption|left; reflexivity|reflexivity]).
        destruct (Q _ _ _ ss r H S ltac:(auto)) as (x & -> & E). rewrite E. cbn [table_dot_loop]. rewrite O. reflexivity.
Qed.
Lemma open_ok : forall v ss r, below (NTable v false) -> wf Fr (NTable v false) = true -> closed_item (NTable v false) = false ->
  spelling (toks v) ss -> stopped ENDS r -> from_item PI (ss ++ r) = Ok (NTable v false, hd_error r, tl r).
Proof.
  intros v ss r IH H C S N. rewrite wf_table in H. unfold tableok in H. bools. assert (H1 := H0).
  assert (X : starts_ident (toks v) = true).
  { destruct v; try discriminate C; try (apply andb_true_iff in H0; apply H0). destruct v1; try discriminate C; apply andb_true_iff in H0; apply H0. }
  apply table_lvl in H0. destruct ss as [|t ss]; [exfalso; eapply spelling_nonnil; [exact S|apply toks_nonnil; auto|auto]|].
  assert (T := starts_ident_first _ _ _ X S). assert (M := ident_marks t T). cbn [app]. unfold from_item. cbn [next_req rbind].
  replace (str_eqb t "(") with false by (symmetry; apply str_eqb_neq; intros ->; apply M; left; auto).
  replace (mem t QUOTES) with false by (symmetry; apply mem_false; intros Z; apply M; revert Z; apply inclb_ok; reflexivity).
  replace (str_eqb t "[") with false by (symmetry; apply str_eqb_neq; intros ->; apply M; right; right; left; auto).
  replace (str_eqb (lower t) "unnest") with false by (symmetry; apply str_eqb_neq; intros Z; apply (ident_not ["unnest"] t eq_refl T); left; auto).
  assert (B : bl false ENDS (t :: ss)).
  { eapply bl_weak; [apply (ex_bl v); auto|auto|]. destruct H0 as [L|(e & a & w & -> & L)].
    - rewrite KS_4 by auto. inc.
    - unfold KS. rewrite KSb_4 by auto. inc. }
  assert (Sv : spec v) by (apply IH; cbn; lia). rewrite (uof false ENDS) by auto. cbn [rbind].
  assert (L7 : lvl v <= 7) by (destruct H0 as [L|(e & a & w & -> & L)]; [lia|cbn; lia]). rewrite (s_arg v Sv); auto. apply (upto_arg v 7); auto.
Qed.
Lemma unnest_ok : forall e wo was al ss r, let n := NUnnest e wo was al in below n -> wf Fr n = true -> spelling (toks n) ss ->
  stopped ENDS r -> from_item PI (ss ++ r) = Ok (n, hd_error r, tl r).
Proof.
  intros e wo was al ss r n IH H S N. unfold n in *. rewrite wf_unnest in H. bools. cbn [toks] in S. apply spelling_app in S as (s1 & s2 & -> & S1 & S2).
  assert (X : exists args, (e = NFun "unnest" args \/ exists a w, e = NAlias (NFun "unnest" args) a w /\ alsok a = true) /\ forallb argok args = true /\ incl args (children (NFun "unnest" args)) /\ Forall spec args
    /\ spelling (Kw "unnest" :: parens (commas (map toks args)) ++ match e with NAlias (NFun _ _) a w => (if w then [Kw "as"] else []) ++ match a with inl t => [Id t] | inr x => toks x end | _ => [] end) s1).
  { destruct e; try discriminate H.
    - cbn [unnestok] in H. bools. subst name. exists args. split; [auto|]. split; [auto|]. split; [intros x; auto|]. split.
      + apply Forall_forall. intros x X. apply IH. assert (Y : size x < size (NFun "unnest" args)) by (apply children_size; auto). cbn in Y |- *. lia.
      + rewrite app_nil_r. exact S1.
    - destruct e; try discriminate H. cbn [unnestok] in H. bools. subst name. exists args. split; [right; eauto|]. split; [auto|]. split; [intros x; auto|]. split.
      + apply Forall_forall. intros x X. apply IH. assert (Y : size x < size (NFun "unnest" args)) by (apply children_size; auto). cbn in Y |- *. destruct alias; lia.
      + exact S1. }
  destruct X as (args & E & HA & _ & SA & SP). clear S1. unfold parens in SP. apply spelling_kw in SP as (t & s & -> & T & SP). cbn [app] in SP.
  rewrite <- app_assoc in SP. cbn [app] in SP. apply spelling_id in SP as (s' & -> & SP). apply spelling_app in SP as (u & v & -> & U & SP). apply spelling_id in SP as (sa & -> & SP).
  assert (M := word_plain _ _ T eq_refl).
  cbn [app]. unfold from_item. cbn [next_req rbind].
  replace (str_eqb t "(") with false by (symmetry; apply str_eqb_neq; intros ->; apply M; left; auto).
  replace (mem t QUOTES) with false by (symmetry; apply mem_false; intros Z; apply M; revert Z; apply inclb_ok; reflexivity).
  replace (str_eqb t "[") with false by (symmetry; apply str_eqb_neq; intros ->; apply M; right; right; left; auto).
  rewrite T. change (str_eqb "unnest" "unnest") with true. cbv iota. unfold unnest_parse. cbn [next_req rbind]. change (str_eqb "(" "(") with true. cbn [rassert rbind].
  rewrite <- !app_assoc. cbn [app]. rewrite (until_close_ok true []) by (eapply args_bl; eauto). cbn [rbind]. rewrite (args_ok args) by auto. cbn [rbind]. rewrite next_hd. cbn [rbind].
  set (RR := s2 ++ r).
  assert (NW : stopped ("with" :: ENDS) RR).
  { unfold RR. apply stopped_app; [|eapply stopped_weak; [exact N|intros x; right; auto]]. destruct wo; [|apply spelling_nil in S2; subst; exact I].
    apply spelling_kw in S2 as (tw & x & -> & TW & _). left. auto. }
  assert (X1 : forall A (k : node * option str * list str -> R A),
    rbind (match hd_error (sa ++ RR) with
     | Some t =>
       if negb (mem (lower t) JOIN_VALUES) && negb (mem (lower t) SET_OPERATORS)
          && negb (str_eqb (lower t) "with")
       then from_alias (NFun "unnest" args) t (tl (sa ++ RR))
       else Ok (NFun "unnest" args, hd_error (sa ++ RR), tl (sa ++ RR))
     | None => Ok (NFun "unnest" args, hd_error (sa ++ RR), tl (sa ++ RR))
     end) k = k (e, hd_error RR, tl RR)).
  { intros A k. destruct E as [-> | (a & w & -> & OA)].
    - apply spelling_nil in SP. subst sa. cbn [app]. destruct RR as [|tr RR']; [reflexivity|]. cbn [hd_error tl].
      cbn [stopped] in NW. destruct NW as [NW|NW].
      + rewrite <- NW. reflexivity.
      + unfold ENDS in NW. apply in_app_or in NW as [NW|NW]; apply mem_In in NW; rewrite NW; cbn [negb andb]; rewrite ?andb_false_r; reflexivity.
    - destruct (als_ok (NFun "unnest" args) a w sa RR OA SP) as (ta & x & -> & NI & _ & EQ). cbn [app hd_error tl].
      replace (mem (lower ta) JOIN_VALUES) with false by (symmetry; apply mem_false; intros Z; apply NI; unfold ENDS; rewrite !in_app_iff; auto).
      replace (mem (lower ta) SET_OPERATORS) with false by (symmetry; apply mem_false; intros Z; apply NI; unfold ENDS; rewrite !in_app_iff; auto).
      replace (str_eqb (lower ta) "with") with false by (symmetry; apply str_eqb_neq; intros Z; apply NI; rewrite in_app_iff, Z; right; left; auto).
      cbn [negb andb]. rewrite EQ. reflexivity. }
  rewrite X1. clear X1. unfold RR in *. clear RR. destruct wo.
  - apply spelling_kw in S2 as (tw & x & -> & TW & S2). apply spelling_kw in S2 as (to & y & -> & TO & S2). cbn [app hd_error tl]. rewrite (olow_low _ _ _ TW).
    change (str_eqb "with" "with") with true. cbv iota. cbn [next_req rbind]. rewrite TO. change (str_eqb "offset" "offset") with true. cbn [rassert rbind]. rewrite next_hd. cbn [rbind].
    destruct al as [a|].
    + bools. assert (IA : ident a = true) by assumption.
      assert (J : mem (lower a) JOIN_VALUES = false) by (apply mem_false, ident_not; auto).
      assert (K : mem (lower a) SET_OPERATORS = false) by (apply mem_false, ident_not; auto).
      destruct was; cbn [app] in S2.
      * apply spelling_kw in S2 as (ta & z & -> & TA & S2). apply spelling_id in S2 as (z' & -> & S2). apply spelling_nil in S2. subst z'. cbn [app hd_error tl]. rewrite TA.
        change (negb (mem "as" JOIN_VALUES) && negb (mem "as" SET_OPERATORS)) with true. change (str_eqb "as" "as") with true. cbv iota. cbn [next_req rbind]. rewrite next_hd. reflexivity.
      * apply spelling_id in S2 as (z' & -> & S2). apply spelling_nil in S2. subst z'. cbn [app hd_error tl]. rewrite J, K. cbn [negb andb].
        replace (str_eqb (lower a) "as") with false by (symmetry; apply str_eqb_neq; intros Z; apply (ident_not ["as"] a eq_refl IA); left; auto).
        cbn [rbind]. rewrite next_hd. reflexivity.
    + bools. subst was. apply spelling_nil in S2. subst y. cbn [app]. destruct r as [|tr r]; [reflexivity|]. cbn [hd_error tl]. cbn [stopped] in N. unfold ENDS in N.
      apply in_app_or in N as [N|N]; apply mem_In in N; rewrite N; cbn [negb andb]; rewrite ?andb_false_r; reflexivity.
  - apply spelling_nil in S2. subst s2. cbn [app]. cbn [orb] in *. bools. subst was. destruct al as [a|]; [discriminate|].
    assert (O : olow_is (hd_error r) "with" = false).
    { apply (nf_is ["with"] r); [|left; auto]. eapply stopped_nf; [exact N|reflexivity]. }
    rewrite O. reflexivity.
Qed.
Lemma fia_ok : forall n ss r, below n -> wf Fr n = true -> flvl n <= 1 -> spelling (toks n) ss -> stopped ENDS r ->
  fia (ss ++ r) = Ok (n, hd_error r, tl r).
Proof.
  intros n ss r IH H L S N. assert (NF : nf F0 r) by (eapply stopped_nf; [exact N|reflexivity]).
  assert (X : forall A (k : node -> option str -> list str -> R A) e, match hd_error r with
    | Some t => if negb (mem (lower t) JOIN_VALUES) && negb (mem (lower t) SET_OPERATORS) then from_alias e t (tl r) else Ok (e, hd_error r, tl r)
    | None => Ok (e, hd_error r, tl r) end = Ok (e, hd_error r, tl r)).
  { intros A k e. destruct r as [|tr r]; [reflexivity|]. cbn [hd_error tl]. cbn [stopped] in N. unfold ENDS in N.
    apply in_app_or in N as [N|N]; apply mem_In in N; rewrite N; cbn [negb andb]; rewrite ?andb_false_r; reflexivity. }
  assert (Y : flvl n = 0 -> fia (ss ++ r) = Ok (n, hd_error r, tl r)).
  { intros L0. assert (Z : from_item PI (ss ++ r) = Ok (n, hd_error r, tl r)).
    { destruct (closed_item n) eqn:C; [apply closed_ok; auto|]. destruct n; try discriminate L0; try discriminate C.
      - destruct brackets; [exfalso; destruct n; try discriminate C; destruct n1; discriminate C|]. apply open_ok; auto.
      - apply unnest_ok; auto.
      - exfalso. clear - L0. cbn in L0. destruct on_, using_; lia. }
    unfold fia. rewrite Z. cbn [rbind]. apply (X unit (fun _ _ _ => Ok tt)). }
  destruct (Nat.eq_dec (flvl n) 0) as [L0|L0]; auto. destruct n; try (cbn in L, L0; lia); try (destruct on_, using_; cbn in L, L0; lia).
  rewrite wf_falias in H. bools. cbn [toks] in S. apply spelling_app in S as (s1 & s2 & -> & S1 & S).
  assert (IHn : below n) by (eapply below_le; eauto; cbn; lia).
  destruct (als_ok n alias with_as s2 r H1 S) as (t & s & -> & NI & NF0 & EQ). unfold fia. rewrite <- app_assoc.
  rewrite (closed_ok n s1 ((t :: s) ++ r)) by (auto; exact NF0). cbn [app hd_error tl rbind].
  replace (mem (lower t) JOIN_VALUES) with false by (symmetry; apply mem_false; intros Z; apply NI; unfold ENDS; rewrite !in_app_iff; auto).
  replace (mem (lower t) SET_OPERATORS) with false by (symmetry; apply mem_false; intros Z; apply NI; unfold ENDS; rewrite !in_app_iff; auto).
  exact EQ.
Qed.

(** ** Joins and set operations *)
Lemma lower_join : forall l, lower (join " " l) = join " " (map lower l).
Proof.
  intros l. induction l as [|a l IH]; auto. cbn [map]. destruct l as [|b l]; auto. cbn [map] in IH |- *.
  change (join " " (a :: b :: l)) with (a ++ " " ++ join " " (b :: l)). rewrite !lower_app, IH. reflexivity.
Qed.
Lemma spelled_words : forall l ss, spelling (map Kw l) ss -> map lower ss = l.
Proof. intros l. induction l as [|k l IH]; intros ss S; [apply spelling_nil in S; subst; auto|]. apply spelling_kw in S as (t & s & -> & T & S). cbn. rewrite T, IH; auto. Qed.
Lemma words_ok : forall ty ss f, spelling (kws ty) ss -> ty = upper ty -> forallb f (split 32 (lower ty)) = true ->
  upper (join " " ss) = ty /\ Forall (fun t => f (lower t) = true) ss /\ ss <> [].
Proof.
  intros ty ss f S U F. assert (S0 := S). unfold kws in S. apply spelled_words in S. split; [|split].
  - rewrite <- upper_lower, lower_join, S, join_split, upper_lower. auto.
  - rewrite <- S in F. rewrite forallb_forall in F. apply Forall_forall. intros t T. apply F. apply in_map. auto.
  - eapply spelling_nonnil; [exact S0|apply kws_nonnil].
Qed.
Lemma set_stop : forall k e nt ts, olow_in nt SET_OPERATORS = false -> set_loop PI k e nt ts = Ok (e, nt, ts).
Proof. intros k e nt ts H. destruct k; cbn [set_loop]; rewrite H; auto. Qed.
Lemma join_stop : forall k e nt ts, olow_in nt JOIN_VALUES = false -> join_loop PI k e nt ts = Ok (e, nt, ts).
Proof. intros k e nt ts H. destruct k; cbn [join_loop]; rewrite H; auto. Qed.
Lemma olow_in_true : forall t L, In (lower t) L -> olow_in (Some t) L = true.
Proof. intros t L H. cbn. apply mem_In. auto. Qed.
Lemma fr_bl : forall n ss K, wf Fr n = true -> allowF K n -> spelling (toks n) ss -> bl true K ss.
Proof. intros n ss K H A S. apply (proj1 (proj2 (bl_all n)) H K A). auto. Qed.
Definition jok (ty : str) : Prop := ty = "," \/ (ty = upper ty /\ forallb (fun w => mem w ["join"; "inner"; "left"; "right"; "full"; "cross"; "outer"; "each"]) (split 32 (lower ty)) = true).
Lemma join_words_ok : forall ty ss r, jok ty -> spelling (if str_eqb ty "," then [Id ","] else kws ty) ss ->
  nf JOIN_VALUES r ->
  exists f u, ss = f :: u /\ In (lower f) JOIN_VALUES /\ upper (join " " (f :: u)) = ty
    /\ until_not_in None JOIN_VALUES (Some f) (u ++ r) = Ok (f :: u, hd_error r, tl r).
Proof.
  intros ty ss r J S N. destruct (str_eqb_case ty ",") as [[E1 E2]|[E1 E2]]; rewrite E1 in S.
  - apply spelling_id in S as (x & -> & S). apply spelling_nil in S. subst. exists ",", []. split; auto. split; [apply mem_In; reflexivity|]. split; [reflexivity|].
    apply uni_ok; auto.
  - destruct J as [J|[J1 J2]]; [congruence|]. destruct (words_ok ty ss _ S J1 J2) as (A & B & C). destruct ss as [|f u]; [congruence|].
    assert (D : Forall (fun t => In (lower t) JOIN_VALUES) (f :: u)).
    { eapply Forall_impl; [|exact B]. cbv beta. intros t T. apply mem_In in T. revert T. apply inclb_ok. reflexivity. }
    exists f, u. split; auto. split; [inversion D; auto|]. split; auto. apply uni_ok; [inversion D; auto|exact N].
Qed.
Lemma fr_nf : forall n ss L, wf Fr n = true -> spelling (toks n) ss -> forallb (fun x => unword x && negb (mem x FFIRST)) L = true -> nf L ss.
Proof. intros n [|t ss] L H S F; [apply nf_nil|]. cbn. apply ffirst_not; auto. eapply from_first; eauto. Qed.
Lemma nf_cons : forall L a b, a <> [] -> nf L a -> nf L (a ++ b).
Proof. intros L [|t a] b N H; [congruence|exact H]. Qed.
Lemma join_kind : forall ty r on_ using_, joinok ty r on_ using_ = true -> jok ty
  /\ (mem ty ["CROSS JOIN"; ","] = true /\ on_ = None /\ using_ = None
      \/ mem ty ["CROSS JOIN"; ","] = false /\ flvl r <= 1 /\ exists c, condok c = true /\ (on_ = Some c /\ using_ = None \/ on_ = None /\ using_ = Some c)).
Proof.
  intros ty r on_ using_ H. unfold joinok in H. destruct (mem ty ["CROSS JOIN"; ","]) eqn:M.
  - split.
    + apply mem_In in M. destruct M as [<-|[<-|[]]]; [right; split; reflexivity|left; reflexivity].
    + left. destruct on_, using_; try discriminate H. auto.
  - bools. unfold join_words in H. bools. split; [right; split; auto|]. right. split; auto. split; auto.
    destruct on_, using_; try discriminate; eauto 9.
Qed.
Lemma join_chain : forall n ss r, below n -> wf Fr n = true -> flvl n <= 2 -> spelling (toks n) ss -> stopped JOIN_VALUES r ->
  exists e nt ts j, fia (ss ++ r) = Ok (e, nt, ts) /\ olow_in nt SET_OPERATORS = false /\ length (tl r) <= j
    /\ join_loop PI (S (length ts)) e nt ts = join_loop PI (S j) n (hd_error r) (tl r).
Proof.
  induction n as [n IHn] using node_ind'. intros ss r IH H L S N. destruct (le_lt_dec (flvl n) 1) as [L1|L1].
  - exists n, (hd_error r), (tl r), (length (tl r)). split; [|split; [|split; auto]].
    + apply fia_ok; auto. eapply stopped_weak; [exact N|]. inc.
    + destruct r as [|t r]; [reflexivity|]. change (mem (lower t) SET_OPERATORS = false). apply mem_false. exact (stopped_nf _ SET_OPERATORS _ N eq_refl).
  - destruct n; try (cbn in L, L1; lia). rewrite wf_join in H. bools. destruct (join_kind _ _ _ _ H0) as (J & K).
    destruct K as [(_ & -> & ->)|(M & RL & c & CO & K)]; [cbn in L; lia|].
    assert (KW : exists k, (k = "on" \/ k = "using") /\ toks (NJoin ty n1 n2 on_ using_) = toks n1 ++ (if str_eqb ty "," then [Id ","] else kws ty) ++ toks n2 ++ Kw k :: toks c
        /\ (forall A (f : option node * option node -> R A) nt et, lower nt = k -> p_expr PI None opts0 et = Ok (c, None, []) ->
           rbind (if olow_is (Some nt) "on" then
           '(c, _, _) <- p_expr PI None opts0 et ;; Ok (Some c, None)
         else if olow_is (Some nt) "using" then
           '(c, _, _) <- p_expr PI None opts0 et ;; Ok (None, Some c)
         else Ok (None, None)) f = f (on_, using_)) /\ size c < size (NJoin ty n1 n2 on_ using_)).
    { destruct K as [[-> ->]|[-> ->]]; [exists "on"|exists "using"]; (split; [auto|split; [cbn [toks]; rewrite ?app_nil_r; reflexivity|split]]);
        try (cbn; lia); intros A f nt et T X; rewrite (olow_low _ _ _ T), ?(olow_low _ _ _ T), X; reflexivity. }
    destruct KW as (k & KK & TK & KC & SC). rewrite TK in S. clear TK K.
    apply spelling_app in S as (s1 & s2 & -> & S1 & S). apply spelling_app in S as (sj & s3 & -> & SJ & S). apply spelling_app in S as (sr & s4 & -> & SR & S).
    apply spelling_kw in S as (tk & sc & -> & TK & SC0).
    assert (W1 : wf Fr n1 = true) by assumption. assert (L1' : flvl n1 <= 2) by assumption. assert (W2 : wf Fr n2 = true) by assumption.
    assert (S2 : spec n2) by (apply IH; cbn; lia). assert (Sc : spec c) by (apply IH; auto).
    assert (N2 : sr <> []) by (eapply spelling_nonnil; [exact SR|apply from_nonnil; auto]).
    destruct (join_words_ok ty sj (sr ++ tk :: sc ++ r) J SJ) as (f & u & -> & F & U & X); [apply nf_cons; auto; eapply fr_nf; eauto|].
    assert (IH1 : below n1) by (eapply below_le; eauto; cbn; lia).
    destruct (IHn n1 ltac:(left; auto) s1 ((f :: u) ++ sr ++ tk :: sc ++ r) IH1 W1 L1' S1 F) as (e & nt & ts & j & A & B & C & D).
    cbn [app tl hd_error] in C, D. rewrite !app_length in C. cbn [length] in C. rewrite app_length in C.
    assert (C' : length (tl r) <= length r) by (destruct r; cbn; lia).
    destruct j as [|j]; [lia|]. exists e, nt, ts, j. split; [|split; [auto|split; [lia|]]].
    + rewrite <- !app_assoc. exact A.
    + rewrite D. remember (Datatypes.S j) as j' eqn:EJ. cbn [join_loop]. rewrite (olow_in_true f JOIN_VALUES F).
      eapply bind_ok; [exact X|]. cbv beta zeta iota. rewrite U, M.
      destruct sr as [|t sr]; [congruence|]. cbn [app hd_error tl].
      assert (BR : bl true ["on"; "using"] (t :: sr)) by (apply (fr_bl n2); auto; right; right; left; auto).
      assert (ST : stopped ["on"; "using"] (tk :: sc ++ r)) by (cbn [stopped]; rewrite TK; destruct KK as [-> | ->]; [left; auto|right; left; auto]).
      rewrite (uof true ["on"; "using"] t sr) by auto.
      cbn [rbind hd_error tl]. rewrite (s_from n2 S2) by auto. cbn [rbind].
      unfold condok in CO. bools.
      assert (BC : bl false JOIN_VALUES sc) by (eapply bl_weak; [apply (ex_bl4 c); auto|auto|inc]).
      rewrite (uo0 false JOIN_VALUES sc) by auto. cbn [rbind]. rewrite (KC _ _ tk sc TK) by (apply (s_arg c Sc); auto; eapply (upto_arg c 4); auto).
      destruct r as [|t' r]; [reflexivity|]. cbn [hd_error tl stopped] in *. apply mem_In in N. rewrite N. reflexivity.
Qed.

Lemma set_chain : forall n ss r, below n -> wf Fr n = true -> flvl n <= 1 \/ flvl n = 4 -> spelling (toks n) ss -> stopped SET_OPERATORS r ->
  exists e nt ts j, fia (ss ++ r) = Ok (e, nt, ts) /\ length (tl r) <= j
    /\ set_loop PI (S (length ts)) e nt ts = set_loop PI (S j) n (hd_error r) (tl r).
Proof.
  induction n as [n IHn] using node_ind'. intros ss r IH H L S N. destruct (le_lt_dec (flvl n) 1) as [L1|L1].
  - exists n, (hd_error r), (tl r), (length (tl r)). split; [|split; auto].
    apply fia_ok; auto. eapply stopped_weak; [exact N|]. inc.
  - destruct n; try (cbn in L, L1; lia); [exfalso; cbn in L; destruct on_, using_; lia|]. rewrite wf_combined in H. bools. cbn [toks] in S.
    apply spelling_app in S as (s1 & s2 & -> & S1 & S). apply spelling_app in S as (sj & sr & -> & SJ & SR).
    assert (S2 : spec n2) by (apply IH; cbn; lia). unfold set_words in H. bools.
    assert (W1 : wf Fr n1 = true) by assumption. assert (NS : no_set n2 = true) by assumption.
    assert (L1' : flvl n1 <= 1 \/ flvl n1 = 4).
    { match goal with Q : _ || _ = true |- _ => apply orb_true_iff in Q as [Q|Q] end; bools; auto. right. apply Nat.eqb_eq. auto. }
    destruct (words_ok op sj (fun w => mem w SET_OPERATORS) SJ ltac:(auto) ltac:(auto)) as (U & B & C). destruct sj as [|f u]; [congruence|].
    assert (D : Forall (fun t => In (lower t) SET_OPERATORS) (f :: u)) by (eapply Forall_impl; [|exact B]; cbv beta; intros t T; apply mem_In in T; auto).
    assert (RT : exists t s, sr = t :: s /\ ~ In (lower t) SET_OPERATORS /\ bl true SET_OPERATORS (t :: s)
       /\ (if str_eqb (lower t) "select" then p_select PI None s else p_from PI (t :: s)) = Ok n2).
    { destruct (is_sel n2) eqn:Q; bools.
      - assert (SL : exists x, toks n2 = Kw "select" :: x) by (destruct n2; try discriminate Q; eexists; reflexivity). destruct SL as (x & SL).
        assert (S0 := SR). rewrite SL in S0. apply spelling_kw in S0 as (t & s & -> & T & S0). exists t, s. split; auto.
        split; [rewrite T; apply mem_false; reflexivity|]. split.
        + apply (proj2 (proj2 (bl_all n2))) with (K := SET_OPERATORS); auto. right. right. split; auto.
        + rewrite T. change (str_eqb "select" "select") with true. cbv iota. eapply (s_sel n2 S2); eauto.
      - assert (W2 : wf Fr n2 = true) by assumption. destruct sr as [|t s]; [exfalso; eapply spelling_nonnil; [exact SR|apply from_nonnil; auto|auto]|].
        assert (F := from_first n2 t s W2 SR). exists t, s. split; auto. split; [apply ffirst_not; auto|]. split.
        + apply (fr_bl n2); auto. right. right. right. right. auto.
        + replace (str_eqb (lower t) "select") with false by (symmetry; apply str_eqb_neq; intros Z; apply (ffirst_not t ["select"] F eq_refl); left; auto).
          apply (s_from n2 S2); auto. }
    destruct RT as (t & s & -> & NT & BR & PR). assert (F : In (lower f) SET_OPERATORS) by (inversion D; auto).
    assert (IH1 : below n1) by (eapply below_le; eauto; cbn; lia).
    destruct (IHn n1 ltac:(left; auto) s1 ((f :: u) ++ (t :: s) ++ r) IH1 W1 L1' S1 F) as (e & nt & ts & j & A & G & E).
    cbn [app tl hd_error] in G, E. rewrite !app_length in G. cbn [length] in G. rewrite app_length in G.
    assert (C' : length (tl r) <= length r) by (destruct r; cbn; lia).
    destruct j as [|j]; [lia|]. exists e, nt, ts, j. split; [|split; [lia|]].
    + rewrite <- !app_assoc. exact A.
    + rewrite E. remember (Datatypes.S j) as j' eqn:EJ. cbn [set_loop]. rewrite (olow_in_true f SET_OPERATORS F).
      eapply bind_ok; [apply (uni_ok SET_OPERATORS f u (t :: s ++ r)); [inversion D; auto|exact NT]|]. cbv beta zeta iota. rewrite U. cbn [hd_error tl].
      rewrite (uof true SET_OPERATORS t s) by auto. cbn [rbind]. rewrite PR. cbn [rbind].
      destruct r as [|t' r]; [reflexivity|]. cbn [hd_error tl stopped] in *. apply mem_In in N. rewrite N. reflexivity.
Qed.
Lemma spec_from : forall n, below n -> wf Fr n = true -> forall ss, spelling (toks n) ss -> p_from PI ss = Ok n.
Proof.
  intros n IH H ss S. rewrite from_eq. destruct (Nat.eq_dec (flvl n) 4) as [L4|L4].
  - destruct (set_chain n ss [] IH H ltac:(auto) S I) as (e & nt & ts & j & A & B & C). rewrite app_nil_r in A. rewrite A. cbn [rbind].
    rewrite C. rewrite set_stop by reflexivity. cbn [rbind]. rewrite join_stop by reflexivity. reflexivity.
  - destruct (le_lt_dec (flvl n) 2) as [L2|L2].
    + destruct (join_chain n ss [] IH H L2 S I) as (e & nt & ts & j & A & B & C & D). rewrite app_nil_r in A. rewrite A. cbn [rbind].
      rewrite set_stop by auto. cbn [rbind]. rewrite D. rewrite join_stop by reflexivity. reflexivity.
    + destruct n; try discriminate H; try (cbn in L2, L4; lia). rewrite wf_join in H. bools. destruct (join_kind _ _ _ _ H0) as (J & K).
      destruct K as [(M & -> & ->)|(M & RL & c & CO & K)]; [|exfalso; destruct K as [[-> ->]|[-> ->]]; cbn in L2; lia].
      cbn [toks] in S. apply spelling_app in S as (s1 & s2 & -> & S1 & S). apply spelling_app in S as (sj & s3 & -> & SJ & S). rewrite !app_nil_r in S.
      assert (W1 : wf Fr n1 = true) by assumption. assert (L1' : flvl n1 <= 2) by assumption. assert (W2 : wf Fr n2 = true) by assumption.
      assert (S2 : spec n2) by (apply IH; cbn; lia).
      destruct (join_words_ok ty sj s3 J SJ) as (f & u & -> & F & U & X); [eapply fr_nf; eauto|].
      assert (IH1 : below n1) by (eapply below_le; eauto; cbn; lia).
      destruct (join_chain n1 s1 ((f :: u) ++ s3) IH1 W1 L1' S1 F) as (e & nt & ts & j & A & B & C & D).
      rewrite A. cbn [rbind]. rewrite set_stop by auto. cbn [rbind]. rewrite D. cbn [app hd_error tl].
      destruct j as [|j]; [exfalso; cbn [app tl] in C; rewrite app_length in C; destruct s3; [eapply spelling_nonnil; [exact S|apply from_nonnil; auto|auto]|cbn in C; lia]|].
      remember (Datatypes.S j) as j' eqn:EJ. cbn [join_loop]. rewrite (olow_in_true f JOIN_VALUES F). 
      match goal with |- rbind ?x _ = _ => assert (Y : x = Ok (NJoin ty n1 n2 None None, None, [])) end.
      { eapply bind_ok; [exact X|]. cbv beta zeta iota. rewrite U, M. cbn [rbind].
        replace (match hd_error s3 with Some t => t :: tl s3 | None => tl s3 end) with s3 by (destruct s3; reflexivity).
        rewrite (s_from n2 S2) by auto. cbn [rbind]. cbn. subst j'. destruct j; reflexivity. }
      rewrite Y. reflexivity.
Qed.

(** ** SELECT *)
Lemma head_is : forall L r k, stopped L r -> mem k L = false -> olow_is (hd_error r) k = false.
Proof. intros L r k S M. apply (nf_is [k] r); [|left; auto]. destruct r as [|t r]; [apply nf_nil|]. intros [->|[]]. apply mem_false in M. auto. Qed.
Lemma upto_args : forall k l, k <= 8 -> forallb (upto k) l = true -> forallb argok l = true.
Proof. intros k l K H. apply forallb_forall. rewrite forallb_forall in H. intros x X. apply H in X. bools. eapply (upto_arg x k); auto. Qed.
Lemma list_bl : forall k l ss K, k <= 7 -> forallb (upto k) l = true -> spelling (commas (map toks l)) ss -> inclb K (minus STOPS [","; "except"; "as"]) = true -> bl false K ss.
Proof.
  intros k l ss K KL H S I. assert (I0 := inclb_ok _ _ I). revert S. apply blt_commas.
  - intros X. apply I0 in X. revert X. apply mem_false. reflexivity.
  - rewrite forallb_forall in H. apply Forall_map, Forall_forall. intros y Y u U. apply H in Y. bools.
    eapply bl_weak; [apply (ex_bl y); auto|auto|]. eapply incl_tran; [exact I0|]. eapply incl_tran; [|apply (KS_7 y); auto; lia]. inc.
Qed.
Lemma sel_ok : forall exprs all d don from_ where_ group having order limit offset semi,
  let n := NSelect exprs all d don from_ where_ group having order limit offset semi in
  below n -> wf St (NSelect exprs all d don from_ where_ group having order limit offset false) = true ->
  forall t ss, spelling (toks n) (t :: ss) -> p_select PI None ss = Ok n.
Proof.
  intros exprs all d don from_ where_ group having order limit offset semi n IH H t ss S. rewrite wf_select in H. bools. clear H0.
  match goal with X : all && d = false |- _ => rename X into HAD end. match goal with X : donok _ _ = true |- _ => rename X into HDON end.
  match goal with X : nonnil exprs = true |- _ => rename X into HNE end. match goal with X : forallb (upto 7) exprs = true |- _ => rename X into HEX end.
  match goal with X : oall (wf Fr) _ = true |- _ => rename X into HFR end. match goal with X : oall condok where_ = true |- _ => rename X into HWH end.
  match goal with X : groupok _ = true |- _ => rename X into HGR end. match goal with X : oall condok having = true |- _ => rename X into HHA end.
  match goal with X : oall itemsok _ = true |- _ => rename X into HOR end. match goal with X : limitok _ = true |- _ => rename X into HLI end.
  match goal with X : oall (upto 3) _ = true |- _ => rename X into HOF end.
  assert (IN : forall x, In x (exprs ++ ollist don ++ olist from_ ++ olist where_
    ++ match group with Some (a, _, _) => a | None => [] end
    ++ olist having ++ ollist order
    ++ match limit with Some (_, Some x) => [x] | _ => [] end ++ olist offset) -> In x (children n)) by (intros x X; exact X).
  unfold n in S. cbn [toks] in S. apply spelling_kw in S as (t0 & s0 & E0 & _ & S). injection E0 as -> ->.
  apply spelling_app in S as (sd & q & -> & SD & S). apply spelling_app in S as (se & q1 & -> & SE & S).
  apply spelling_app in S as (sf & q2 & -> & SF & S). apply spelling_app in S as (sw & q3 & -> & SW & S).
  apply spelling_app in S as (sg & q4 & -> & SG & S). apply spelling_app in S as (sh & q5 & -> & SH & S).
  apply spelling_app in S as (so & q6 & -> & SO & S). apply spelling_app in S as (sl & q7 & -> & SL & S).
  apply spelling_app in S as (sx & sm & -> & SX & SM).
  assert (PM : stopped [";"] sm) by (destruct semi; [apply spelling_id in SM as (? & -> & _); left; auto|apply spelling_nil in SM; subst; exact I]).
  assert (PX : stopped ["offset"; ";"] (sx ++ sm)).
  { apply stopped_app; [|eapply stopped_weak; [exact PM|inc]]. destruct offset; [apply spelling_kw in SX as (? & ? & -> & <- & _); left; auto|apply spelling_nil in SX; subst; exact I]. }
  assert (PL : stopped ["limit"; "offset"; ";"] (sl ++ sx ++ sm)).
  { apply stopped_app; [|eapply stopped_weak; [exact PX|inc]].
    destruct limit as [[[|] [l|]]|]; try discriminate HLI; try (apply spelling_kw in SL as (? & ? & -> & <- & _); left; auto; fail). apply spelling_nil in SL; subst; exact I. }
  assert (PO : stopped ["order"; "limit"; "offset"; ";"] (so ++ sl ++ sx ++ sm)).
  { apply stopped_app; [|eapply stopped_weak; [exact PL|inc]]. destruct order; [apply spelling_kw in SO as (? & ? & -> & <- & _); left; auto|apply spelling_nil in SO; subst; exact I]. }
  assert (PH : stopped ["having"; "order"; "limit"; "offset"; ";"] (sh ++ so ++ sl ++ sx ++ sm)).
  { apply stopped_app; [|eapply stopped_weak; [exact PO|inc]]. destruct having; [apply spelling_kw in SH as (? & ? & -> & <- & _); left; auto|apply spelling_nil in SH; subst; exact I]. }
  assert (PG : stopped ["group"; "having"; "order"; "limit"; "offset"; ";"] (sg ++ sh ++ so ++ sl ++ sx ++ sm)).
  { apply stopped_app; [|eapply stopped_weak; [exact PH|inc]]. destruct group as [[[? ?] ?]|]; [apply spelling_kw in SG as (? & ? & -> & <- & _); left; auto|apply spelling_nil in SG; subst; exact I]. }
  assert (PW : stopped FK (sw ++ sg ++ sh ++ so ++ sl ++ sx ++ sm)).
  { apply stopped_app; [|eapply stopped_weak; [exact PG|inc]]. destruct where_; [apply spelling_kw in SW as (? & ? & -> & TX & _); cbn [app stopped]; rewrite TX; left; auto|apply spelling_nil in SW; subst; exact I]. }
  assert (PF : stopped SELECT_KEYWORDS (sf ++ sw ++ sg ++ sh ++ so ++ sl ++ sx ++ sm)).
  { apply stopped_app; [|eapply stopped_weak; [exact PW|inc]]. destruct from_; [apply spelling_kw in SF as (? & ? & -> & TX & _); cbn [app stopped]; rewrite TX; apply mem_In; reflexivity|apply spelling_nil in SF; subst; exact I]. }
  set (rx := sx ++ sm) in *. set (rl := sl ++ rx) in *. set (ro := so ++ rl) in *. set (rh := sh ++ ro) in *. set (rg := sg ++ rh) in *. set (rw := sw ++ rg) in *. set (rf := sf ++ rw) in *.
  assert (COND : forall c (U : list str) s r, In c (children n) -> condok c = true -> spelling (toks c) s -> stopped U r ->
     forallb (fun x => negb (mem x FULL)) U = true -> p_expr PI None (full false U) (s ++ r) = Ok (c, hd_error r, tl r)).
  { intros c U s r C CO SC ST F. unfold condok in CO. bools. assert (Sc : spec c) by (apply IH, children_size; auto).
    apply (s_full c Sc); auto; [eapply stopped_nf; eauto|]. destruct r as [|tr r]; [exact I|]. right. right. exact ST. }
  (* the offset *)
  assert (X8 : forall A (k : option node * option str * list str -> R A),
    rbind (if olow_is (hd_error rx) "offset" then
       '(et, nt, ts) <- until_one_of None [";"] None [] (tl rx) ;;
       '(e, _, _) <- p_expr PI None opts0 et ;;
       Ok (Some e, nt, ts)
     else Ok (None, hd_error rx, tl rx)) k = k (offset, hd_error sm, tl sm)).
  { intros A k. unfold rx. destruct offset as [e|].
    - apply spelling_kw in SX as (tx & s & -> & TX & SX). cbn [app hd_error tl]. rewrite (olow_low _ _ _ TX). change (str_eqb "offset" "offset") with true. cbv iota.
      cbn [oall] in HOF. bools. assert (B : bl false [";"] s) by (eapply bl_weak; [apply (ex_bl4 e); auto|auto|inc]). rewrite (uo0 false [";"] s) by auto. cbn [rbind].
      assert (Se : spec e) by (apply IH, children_size, IN; chi). rewrite (s_arg e Se) by (auto; apply (upto_arg e 3); auto; lia). reflexivity.
    - apply spelling_nil in SX. subst sx. cbn [app]. rewrite (head_is [";"]) by auto. reflexivity. }
  assert (X7 : forall A (k : option (bool * option node) * option str * list str -> R A),
    rbind (if olow_is (hd_error rl) "limit" then
       '(et, nt, ts) <- until_one_of None ["offset"; ";"] None [] (tl rl) ;;
       l <- limit_clause PI et ;;
       Ok (Some l, nt, ts)
     else Ok (None, hd_error rl, tl rl)) k = k (limit, hd_error rx, tl rx)).
  { intros A k. unfold rl. destruct limit as [[[|] [e|]]|]; try discriminate HLI.
    - apply spelling_kw in SL as (tx & s & -> & TX & SL). apply spelling_kw in SL as (ta & s' & -> & TA & SL). apply spelling_nil in SL. subst s'.
      cbn [app hd_error tl]. rewrite (olow_low _ _ _ TX). change (str_eqb "limit" "limit") with true. cbv iota.
      change (ta :: rx) with ([ta] ++ rx). rewrite (uo0 false ["offset"; ";"] [ta]); auto.
      + cbn [rbind]. unfold limit_clause. cbn [next_req rbind]. rewrite TA. reflexivity.
      + apply bl_tok; [split; [eapply word_plain; eauto|rewrite TA; apply mem_false; reflexivity]|rewrite TA; apply mem_false; reflexivity|apply bl_nil].
    - apply spelling_kw in SL as (tx & s & -> & TX & SL). cbn [app hd_error tl]. rewrite (olow_low _ _ _ TX). change (str_eqb "limit" "limit") with true. cbv iota.
      cbn [limitok] in HLI. bools. assert (B : bl false STOPS s) by (apply (ex_bl4 e); auto).
      rewrite (uo0 false STOPS s) by auto. cbn [rbind].
      assert (Se : spec e) by (apply IH, children_size, IN; chi). unfold limit_clause.
      destruct s as [|te s]; [exfalso; eapply spelling_nonnil; [exact SL|apply toks_nonnil; auto|auto]|]. cbn [next_req rbind].
      assert (F := proj1 (first_in e te s ltac:(auto) SL)).
      replace (str_eqb (lower te) "all") with false by (symmetry; apply str_eqb_neq; intros Z; apply (okf_not _ ["all"] te F eq_refl); left; auto).
      rewrite (uof_end false STOPS) by auto. cbn [rbind].
      rewrite (s_arg e Se) by (auto; apply (upto_arg e 3); auto; lia). reflexivity.
    - apply spelling_nil in SL. subst sl. cbn [app]. rewrite (head_is ["offset"; ";"]) by auto. reflexivity. }
  assert (X6 : forall A (k : option (list node) * option str * list str -> R A),
    rbind (if olow_is (hd_error ro) "order" then
       '(nt, ts) <- next_opt None (tl ro) ;;
       if negb (olow_is nt "by") then Err (ParsingError "Missing BY after ORDER") else
       '(et, nt, ts) <- until_one_of None ["limit"; "offset"; ";"] None [] ts ;;
       items <- orderby PI et ;;
       Ok (Some items, nt, ts)
     else Ok (None, hd_error ro, tl ro)) k = k (order, hd_error rl, tl rl)).
  { intros A k. unfold ro. destruct order as [l|].
    - apply spelling_kw in SO as (tx & s & -> & TX & SO). apply spelling_kw in SO as (tb & s' & -> & TB & SO). cbn [app hd_error tl]. rewrite (olow_low _ _ _ TX). change (str_eqb "order" "order") with true. cbv iota.
      cbn [next_opt rbind]. rewrite (olow_low _ _ _ TB). change (negb (str_eqb "by" "by")) with false. cbv iota. cbn [oall] in HOR.
      assert (B : bl false ["limit"; "offset"; ";"] s') by (eapply bl_weak; [eapply items_bl; [|eauto]; unfold itemsok in HOR; bools; auto|auto|inc]).
      rewrite (uo0 false ["limit"; "offset"; ";"] s') by auto. cbn [rbind]. rewrite (items_ok l) by (auto; apply (below_items _ l IH); intros z Z; apply IN; chi). reflexivity.
    - apply spelling_nil in SO. subst so. cbn [app]. rewrite (head_is ["limit"; "offset"; ";"]) by auto. reflexivity. }
  assert (X5 : forall A (k : option node * option str * list str -> R A),
    rbind (if olow_is (hd_error rh) "having" then
       '(e, nt, ts) <- p_expr PI None
          (mk_eopts false false false ["order"; "limit"; "offset"; ";"] None false) (tl rh) ;;
       Ok (Some e, nt, ts)
     else Ok (None, hd_error rh, tl rh)) k = k (having, hd_error ro, tl ro)).
  { intros A k. unfold rh. destruct having as [e|].
    - apply spelling_kw in SH as (tx & s & -> & TX & SH). cbn [app hd_error tl]. rewrite (olow_low _ _ _ TX). change (str_eqb "having" "having") with true. cbv iota.
      cbn [oall] in HHA. change (mk_eopts false false false ["order"; "limit"; "offset"; ";"] None false) with (full false ["order"; "limit"; "offset"; ";"]).
      rewrite (COND e) by (auto; apply IN; chi). reflexivity.
    - apply spelling_nil in SH. subst sh. cbn [app]. rewrite (head_is ["order"; "limit"; "offset"; ";"]) by auto. reflexivity. }
  assert (X4 : forall A (k : option (list node * bool * bool) * option str * list str -> R A),
    rbind (if olow_is (hd_error rg) "group" then
       '(nt, ts) <- next_opt None (tl rg) ;;
       '(each, nt, ts) <-
         (if olow_is nt "each" then '(nt, ts) <- next_opt None ts ;; Ok (true, nt, ts)
          else Ok (false, nt, ts)) ;;
       if negb (olow_is nt "by") then Err (ParsingError "Missing BY after GROUP") else
       '(et, nt, ts) <- until_one_of None ["having"; "order"; "limit"; "offset"; ";"] None [] ts ;;
       '(args, rollup) <- groupby PI et ;;
       Ok (Some (args, rollup, each), nt, ts)
     else Ok (None, hd_error rg, tl rg)) k = k (group, hd_error rh, tl rh)).
  { intros A k. unfold rg. destruct group as [[[l ro_] ea]|].
    - apply spelling_kw in SG as (tx & s & -> & TX & SG). apply spelling_app in SG as (s1 & s2 & -> & SA & SG). apply spelling_kw in SG as (tb & s3 & -> & TB & SG).
      apply spelling_app in SG as (s4 & s5 & -> & SR & SG).
      cbn [app hd_error tl]. rewrite (olow_low _ _ _ TX). change (str_eqb "group" "group") with true. cbv iota.
      assert (EA : forall B (k : bool * option str * list str -> R B) x,
         rbind ('(nt, ts) <- next_opt None (s1 ++ tb :: x) ;; (if olow_is nt "each" then '(nt, ts) <- next_opt None ts ;; Ok (true, nt, ts) else Ok (false, nt, ts))) k = k (ea, Some tb, x)).
      { intros B k' x. destruct ea.
        - apply spelling_kw in SA as (te & y & -> & TE & SA). apply spelling_nil in SA. subst y. cbn [app next_opt rbind]. rewrite (olow_low _ _ _ TE). reflexivity.
        - apply spelling_nil in SA. subst s1. cbn [app next_opt rbind]. rewrite (olow_low _ _ _ TB). reflexivity. }
      assert (GB : groupby PI (s4 ++ s5) = Ok (l, ro_)).
      { cbn [groupok] in HGR. bools. assert (AO := upto_args 3 l ltac:(lia) H0). assert (SLs : Forall spec l) by (apply (below_list _ l IH); intros z Z; apply IN; chi).
        assert (B : bl false [] s5) by (eapply (list_bl 3 l); eauto; lia).
        unfold groupby. destruct ro_.
        - apply spelling_kw in SR as (tr & y & -> & TR & SR). apply spelling_nil in SR. subst y. cbn [app next_req rbind]. rewrite TR. change (str_eqb "rollup" "rollup") with true. cbv iota.
          rewrite (uo0_end false [] s5) by auto. cbn [rbind]. rewrite (args_ok l) by auto. reflexivity.
        - apply spelling_nil in SR. subst s4. cbn [app]. destruct (args_first l s5 H AO SG) as (tf & y & -> & F). cbn [next_req rbind].
          replace (str_eqb (lower tf) "rollup") with false by (symmetry; apply str_eqb_neq; intros Z; apply (okf_not _ ["rollup"] tf F eq_refl); left; auto).
          rewrite (uof_end false []) by auto. cbn [rbind]. rewrite (args_ok l) by auto. reflexivity. }
      assert (BB : bl false ["having"; "order"; "limit"; "offset"; ";"] (s4 ++ s5)).
      { cbn [groupok] in HGR. bools. apply bl_app; [|eapply (list_bl 3 l); eauto; lia]. destruct ro_; [|apply spelling_nil in SR; subst; apply bl_nil].
        apply spelling_kw in SR as (tr & y & -> & TR & SR). apply spelling_nil in SR. subst y.
        apply bl_tok; [split; [eapply word_plain; eauto|rewrite TR; apply mem_false; reflexivity]|rewrite TR; apply mem_false; reflexivity|apply bl_nil]. }
      specialize (EA (option (list node * bool * bool) * option str * list str)%type).
      match goal with |- rbind ?x _ = _ => assert (Y : x = Ok (Some (l, ro_, ea), hd_error rh, tl rh)) end; [|rewrite Y; reflexivity].
      rewrite <- app_assoc. cbn [app].
      match goal with |- rbind (next_opt _ ?z) (fun p => let '(a, b) := p in rbind (@?u a b) ?kk) = ?w =>
        change (rbind (next_opt None z) (fun p => let '(a, b) := p in rbind (u a b) kk) = w) end.
      assert (ASSOC : forall B C D (m : R B) (f : B -> R C) (g : C -> R D), rbind m (fun b => rbind (f b) g) = rbind (rbind m f) g) by (intros B C D [m|m] f g; reflexivity).
      etransitivity; [|etransitivity; [apply (EA (fun p => let '(each, nt, ts) := p in
          if negb (olow_is nt "by") then Err (ParsingError "Missing BY after GROUP") else
       '(et, nt, ts) <- until_one_of None ["having"; "order"; "limit"; "offset"; ";"] None [] ts ;;
       '(args, rollup) <- groupby PI et ;;
       Ok (Some (args, rollup, each), nt, ts)) ((s4 ++ s5) ++ rh))|]].
      + destruct ea.
        * apply spelling_kw in SA as (te & y & -> & TE & SA). apply spelling_nil in SA. subst y. cbn [app next_opt rbind]. reflexivity.
        * apply spelling_nil in SA. subst s1. cbn [app next_opt rbind]. reflexivity.
      + cbv beta iota. rewrite (olow_low _ _ _ TB). change (negb (str_eqb "by" "by")) with false. cbv iota.
        rewrite (uo0 false ["having"; "order"; "limit"; "offset"; ";"] (s4 ++ s5)) by auto. cbn [rbind]. rewrite GB. reflexivity.
    - apply spelling_nil in SG. subst sg. cbn [app]. rewrite (head_is ["having"; "order"; "limit"; "offset"; ";"]) by auto. reflexivity. }
  assert (X3 : forall A (k : option node * option str * list str -> R A),
    rbind (if olow_is (hd_error rw) "where" then
       '(e, nt, ts) <- p_expr PI None
          (mk_eopts false false false ["group"; "having"; "order"; "limit"; "offset"; ";"] None false) (tl rw) ;;
       Ok (Some e, nt, ts)
     else Ok (None, hd_error rw, tl rw)) k = k (where_, hd_error rg, tl rg)).
  { intros A k. unfold rw. destruct where_ as [e|].
    - apply spelling_kw in SW as (tx & s & -> & TX & SW). cbn [app hd_error tl]. rewrite (olow_low _ _ _ TX). change (str_eqb "where" "where") with true. cbv iota.
      cbn [oall] in HWH. change (mk_eopts false false false ["group"; "having"; "order"; "limit"; "offset"; ";"] None false) with (full false ["group"; "having"; "order"; "limit"; "offset"; ";"]).
      rewrite (COND e) by (auto; apply IN; chi). reflexivity.
    - apply spelling_nil in SW. subst sw. cbn [app]. rewrite (head_is ["group"; "having"; "order"; "limit"; "offset"; ";"]) by auto. reflexivity. }
  assert (X2 : forall A (k : option node * option str * list str -> R A),
    rbind (if olow_is (hd_error rf) "from" then
       '(et, nt, ts) <- until_one_of None
          ["where"; "group"; "having"; "order"; "limit"; "offset"; ";"] None
          [("with", "offset")] (tl rf) ;;
       f <- p_from PI et ;;
       Ok (Some f, nt, ts)
     else Ok (None, hd_error rf, tl rf)) k = k (from_, hd_error rw, tl rw)).
  { intros A k. unfold rf. destruct from_ as [f|].
    - apply spelling_kw in SF as (tx & s & -> & TX & SF). cbn [app hd_error tl]. rewrite (olow_low _ _ _ TX). change (str_eqb "from" "from") with true. cbv iota.
      cbn [oall] in HFR. assert (B : bl true FK s) by (apply (fr_bl f); auto; right; left; auto).
      assert (UO := uo_ok true FK s B true FK rw (incl_refl _) (marksb_ok FK eq_refl) ltac:(auto) PW).
      match goal with |- rbind (rbind ?x _) _ = _ => change x with (until_one_of None FK None (keepw true) (s ++ rw)) end. rewrite UO. cbn [rbind].
      assert (Sf : spec f) by (apply IH, children_size, IN; chi). rewrite (s_from f Sf) by auto. reflexivity.
    - apply spelling_nil in SF. subst sf. cbn [app]. rewrite (head_is FK) by auto. reflexivity. }
  (* the list *)
  assert (AO := upto_args 7 exprs ltac:(lia) HEX). destruct (args_first exprs se HNE AO SE) as (te & se' & Ese & FE).
  assert (BE : bl false SELECT_KEYWORDS se) by (eapply (list_bl 7 exprs); eauto).
  assert (SLE : Forall spec exprs) by (apply (below_list _ exprs IH); intros z Z; apply IN; apply in_or_app; auto).
  rewrite PI_select by apply eok_none. unfold select_body.
  assert (X1 : forall A (k : list str * option str * list str -> bool -> bool -> option (list node) -> R A),
    ('(t, ts) <- next_req None (sd ++ se ++ rf) ;;
    '(sel_all, sel_distinct, don, first, ts) <-
    (if str_eqb (lower t) "all" then Ok (true, false, None, None, ts)
     else if str_eqb (lower t) "distinct" then
       '(t, ts) <- next_req None ts ;;
       if str_eqb (lower t) "on" then
         '(_, ts) <- next_req None ts ;;
         '(dt, ts) <- until_close None None ts ;;
         es <- exprlist PI false dt ;;
         Ok (false, true, Some es, None, ts)
       else Ok (false, true, None, Some t, ts)
     else Ok (false, false, None, Some t, ts)) ;;
    p <- until_one_of None SELECT_KEYWORDS first [] ts ;; k p sel_all sel_distinct don) = k (se, hd_error rf, tl rf) all d don).
  { intros A k.
    assert (U0 : until_one_of None SELECT_KEYWORDS None [] (se ++ rf) = Ok (se, hd_error rf, tl rf)) by (apply (uo0 false SELECT_KEYWORDS se); auto).
    assert (U1 : until_one_of None SELECT_KEYWORDS (Some te) [] (se' ++ rf) = Ok (se, hd_error rf, tl rf)) by (rewrite Ese; apply (uof false SELECT_KEYWORDS te se'); auto; rewrite <- Ese; auto).
    assert (NL : forall x, mem x ["all"; "distinct"; "on"] = true -> str_eqb (lower te) x = false).
    { intros x X. apply str_eqb_neq. intros Z. apply (okf_not _ ["all"; "distinct"; "on"] te FE eq_refl). rewrite Z. apply mem_In. auto. }
    destruct all.
    - destruct d; [discriminate HAD|]. destruct don; [discriminate HDON|].
      apply spelling_kw in SD as (ta & y & -> & TA & SD). apply spelling_nil in SD. subst y. cbn [app next_req rbind]. rewrite TA. change (str_eqb "all" "all") with true. cbv iota.
      cbn [rbind]. rewrite U0. reflexivity.
    - destruct d.
      + apply spelling_kw in SD as (ta & y & -> & TA & SD). cbn [app next_req rbind]. rewrite TA. change (str_eqb "distinct" "all") with false. change (str_eqb "distinct" "distinct") with true. cbv iota.
        destruct don as [l|].
        * unfold parens in SD. apply spelling_kw in SD as (tn & z & -> & TN & SD). apply spelling_id in SD as (z' & -> & SD). apply spelling_app in SD as (u & v & -> & U & SD).
          apply spelling_id in SD as (w & -> & SD). apply spelling_nil in SD. subst w. cbn [app next_req rbind]. rewrite TN. change (str_eqb "on" "on") with true. cbv iota.
          cbn [next_req rbind]. rewrite app_assoc3. cbn [donok] in HDON. bools. assert (AO' := upto_args 3 l ltac:(lia) ltac:(auto)).
          rewrite (until_close_ok true []) by (eapply args_bl; eauto). cbn [rbind]. rewrite (args_ok l); auto.
          -- cbn [app]. cbn [rbind]. rewrite U0. reflexivity.
          -- apply (below_list _ l IH); intros q Z; apply IN; chi.
        * apply spelling_nil in SD. subst y. cbn [app]. rewrite Ese. cbn [app next_req rbind]. rewrite NL by reflexivity. cbn [rbind]. rewrite U1, Ese. reflexivity.
      + destruct don; [discriminate HDON|]. apply spelling_nil in SD. subst sd. cbn [app]. rewrite Ese. cbn [app next_req rbind]. rewrite !NL by reflexivity. cbn [rbind]. rewrite U1, Ese. reflexivity. }
  etransitivity; [apply X1|]. cbv beta iota. rewrite (args_ok exprs) by auto. cbn [rbind].
  rewrite X2, X3, X4, X5, X6, X7, X8. 
  replace (opt_eqb (hd_error sm) ";") with semi; [reflexivity|]. destruct semi; [apply spelling_id in SM as (? & -> & _)|apply spelling_nil in SM; subst]; reflexivity.
Qed.

(** ** WITH, and whole statements *)
Lemma commas_two : forall x y l, commas (x :: y :: l) = x ++ Id "," :: commas (y :: l).
Proof. reflexivity. Qed.
Lemma with_ok : forall qs k ss t r, nonnil qs = true -> forallb wqok qs = true -> Forall spec (map snd qs) -> length qs <= k ->
  spelling (commas (map (fun q => Id (fst q) :: Kw "as" :: parens (toks (snd q))) qs)) ss -> lower t = "select" ->
  with_loop PI k None (ss ++ t :: r) = Ok (qs, r).
Proof.
  induction qs as [|[name q] qs IH]; intros k ss t r N W SP L S T; [discriminate N|]. destruct k as [|k]; [cbn in L; lia|].
  apply Forall_inv_tail in SP as SP'. apply Forall_inv in SP as Sq. cbn [snd map] in Sq. cbn [forallb] in W. apply andb_true_iff in W as [Wq W].
  unfold wqok in Wq. cbn [fst snd] in Wq. bools.
  assert (ST : exists s0 rest, ss = name :: s0 ++ rest /\
     (forall z, '(t, ts) <- next_req None (s0 ++ z) ;; _ <- rassert (str_eqb (lower t) "as") ;; '(t, ts) <- next_req None ts ;;
        _ <- rassert (str_eqb (lower t) "(") ;; '(at_, ts) <- until_close None None ts ;; q <- p_stmt PI None at_ ;; Ok (q, ts) = Ok (q, z)) /\
     (match qs with [] => rest = [] | _ => exists rest', rest = "," :: rest' /\ spelling (commas (map (fun q => Id (fst q) :: Kw "as" :: parens (toks (snd q))) qs)) rest' end)).
  { assert (P : forall s, spelling (Id name :: Kw "as" :: parens (toks q)) s -> exists s0, s = name :: s0 /\
       (forall z, '(t, ts) <- next_req None (s0 ++ z) ;; _ <- rassert (str_eqb (lower t) "as") ;; '(t, ts) <- next_req None ts ;;
        _ <- rassert (str_eqb (lower t) "(") ;; '(at_, ts) <- until_close None None ts ;; q <- p_stmt PI None at_ ;; Ok (q, ts) = Ok (q, z))).
    { intros s X. unfold parens in X. apply spelling_id in X as (s1 & -> & X). apply spelling_kw in X as (ta & s2 & -> & TA & X). apply spelling_id in X as (s3 & -> & X).
      apply spelling_app in X as (u & v & -> & U & X). apply spelling_id in X as (w & -> & X). apply spelling_nil in X. subst w. eexists. split; [reflexivity|]. intros z.
      cbn [app next_req rbind]. rewrite TA. change (str_eqb "as" "as") with true. cbn [rassert rbind next_req]. change (str_eqb (lower "(") "(") with true. cbn [rassert rbind].
      rewrite <- app_assoc. cbn [app]. rewrite (until_close_ok true []).
      - cbn [rbind]. rewrite (s_stmt q Sq) by auto. reflexivity.
      - apply (proj2 (proj2 (bl_all q))); auto. left. auto. }
    cbn [map fst snd] in S. destruct qs as [|p qs].
    - cbn [map commas] in S. destruct (P _ S) as (s0 & -> & X). exists s0, []. rewrite app_nil_r. auto.
    - cbn [map] in S. rewrite commas_two in S. apply spelling_app in S as (u & v & -> & U & S). apply spelling_id in S as (v' & -> & S).
      destruct (P _ U) as (s0 & -> & X). exists s0, ("," :: v'). repeat split; auto. exists v'. auto. }
  destruct ST as (s0 & rest & -> & P & Q). cbn [with_loop app next_req rbind]. rewrite <- app_assoc. specialize (P (rest ++ t :: r)).
  assert (ASSOC : forall B (kk : node * list str -> R B), rbind ('(t, ts) <- next_req None (s0 ++ rest ++ t :: r) ;; _ <- rassert (str_eqb (lower t) "as") ;; '(t, ts) <- next_req None ts ;;
        _ <- rassert (str_eqb (lower t) "(") ;; '(at_, ts) <- until_close None None ts ;; q <- p_stmt PI None at_ ;; Ok (q, ts)) kk = kk (q, rest ++ t :: r)) by (intros B kk; rewrite P; reflexivity).
  specialize (ASSOC _ (fun p => let '(q, ts) := p in '(sep, ts) <- next_req None ts ;;
    if str_eqb (lower sep) "select" then Ok ([(name, q)], ts)
    else '(qs, ts) <- with_loop PI k None ts ;; Ok ((name, q) :: qs, ts))).
  etransitivity; [|etransitivity; [exact ASSOC|]].
  - destruct (next_req None (s0 ++ rest ++ t :: r)) as [[t1 ts1]|]; [|reflexivity]. cbn [rbind]. destruct (rassert (str_eqb (lower t1) "as")); [|reflexivity]. cbn [rbind].
    destruct (next_req None ts1) as [[t2 ts2]|]; [|reflexivity]. cbn [rbind]. destruct (rassert (str_eqb (lower t2) "(")); [|reflexivity]. cbn [rbind].
    destruct (until_close None None ts2) as [[t3 ts3]|]; [|reflexivity]. cbn [rbind]. destruct (p_stmt PI None t3); reflexivity.
  - cbv beta iota. destruct qs as [|p qs].
    + subst rest. cbn [app next_req rbind]. rewrite T. reflexivity.
    + destruct Q as (rest' & -> & Q). cbn [app next_req rbind]. change (str_eqb (lower ",") "select") with false. cbv iota.
      rewrite (IH k rest' t r); auto. cbn [length] in *. lia.
Qed.
Lemma spelling_length : forall ts ss, spelling ts ss -> length ss = length ts.
Proof. intros ts ss H. induction H; cbn; auto. Qed.
Lemma commas_length : forall (l : list (list tok)), Forall (fun x => x <> []) l -> length l <= length (commas l).
Proof.
  induction l as [|x l IH]; intros H; [auto|]. inversion H; subst. specialize (IH H3). destruct l as [|y l].
  - cbn. destruct x; [congruence|cbn; lia].
  - rewrite commas_two, app_length. cbn [length] in *. lia.
Qed.
Lemma stmt_ok : forall n, below n -> statement n = true -> forall ss, spelling (toks n) ss -> p_stmt PI None ss = Ok n.
Proof.
  intros n IH H ss S. unfold statement in H. rewrite PI_stmt by apply eok_none. unfold stmt_body. destruct n; try discriminate H.
  - assert (S0 := S). cbn [toks] in S. apply spelling_kw in S as (t & s & -> & T & _). cbn [next_req rbind]. rewrite T. change (str_eqb "select" "select") with true. cbv iota.
    eapply sel_ok; eauto.
  - cbn [toks] in S. apply spelling_kw in S as (t & s & -> & T & S). cbn [next_req rbind]. rewrite T. change (str_eqb "with" "select") with false. change (str_eqb "with" "with") with true. cbv iota.
    apply spelling_app in S as (u & v & -> & U & V). unfold with_parse. destruct n; try (cbn [with_semi] in H; rewrite wf_with in H; bools; discriminate).
    cbn [with_semi] in H. rewrite wf_with in H. bools. assert (V0 := V). cbn [toks] in V. apply spelling_kw in V as (tv & v' & -> & TV & _).
    rewrite (with_ok queries (Datatypes.S (length (u ++ tv :: v'))) u tv v'); auto.
    + cbn [rbind]. erewrite sel_ok; [reflexivity| |eassumption|exact V0]. eapply below_le; [exact IH|]. cbn [size]. lia.
    + apply (below_list _ _ IH). intros x X. cbn [children]. apply in_or_app. auto.
    + apply spelling_length in U. rewrite app_length, U. assert (X := commas_length (map (fun q => Id (fst q) :: Kw "as" :: parens (toks (snd q))) queries)).
      rewrite map_length in X. assert (length queries <= length (commas (map (fun q => Id (fst q) :: Kw "as" :: parens (toks (snd q))) queries))); [|lia].
      apply X. apply Forall_map, Forall_forall. intros; discriminate.
Qed.
Lemma semi_false : forall n, wf St n = true -> with_semi false n = n.
Proof.
  intros n H. destruct n; try discriminate H.
  - rewrite wf_select in H. cbn [with_semi]. bools. subst. reflexivity.
  - rewrite wf_with in H. bools. destruct n; try reflexivity. match goal with X : wf St (NSelect _ _ _ _ _ _ _ _ _ _ _ _) = true |- _ => rewrite wf_select in X end. bools. subst. reflexivity.
Qed.
Lemma spec_all : forall n, spec n.
Proof.
  intros n. remember (size n) as k eqn:E. revert n E. induction k as [k IH] using (well_founded_induction lt_wf). intros n ->.
  assert (B : below n) by (intros m M; eapply IH; eauto).
  assert (SE : wf St n = true -> is_sel n = true -> forall t ss, spelling (toks n) (t :: ss) -> p_select PI None ss = Ok n).
  { intros W I t ss S. destruct n; try discriminate I. eapply sel_ok; eauto.
    pose proof (semi_false _ W) as X. cbn [with_semi] in X. rewrite X. auto. }
  constructor.
  - apply spec_rh. auto.
  - apply spec_ch. auto.
  - apply spec_full. auto.
  - apply spec_arg; auto.
  - apply spec_from. auto.
  - auto.
  - intros W. apply stmt_ok; auto. unfold statement. rewrite semi_false; auto.
Qed.
(** Every statement of the fragment is read back from every spelling of its tokens. *)
Theorem parse_spelling : forall n, statement n = true -> forall ss, spelling (toks n) ss -> parse_stmt None ss = Ok n.
Proof.
  intros n H ss S. rewrite parse_PI by apply eok_none. apply stmt_ok; auto. intros m _. apply spec_all.
Qed.
