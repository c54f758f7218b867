(** Proofs for C54: the parser takes its pieces from the tokens, in order. *)
From Verif Require Import PyStr PyFloat Tokeniser Ast Parser Lib SpecTaken.
Local Open Scope str_scope.
Local Open Scope list_scope.

(** [gives l r i]: from [i], [l] is taken and [r] is left *)
Inductive gives : list piece -> list str -> list str -> Prop :=
| g_done r : gives [] r r
| g_skip t l r i : gives l r i -> gives l r (t :: i)
| g_read p a l r i : written p a -> gives l r i -> gives (p :: l) r (a ++ i).

Lemma gives_trans : forall l m i, gives l m i -> forall l2 r, gives l2 r m -> gives (l ++ l2) r i.
Proof. intros l m i H. induction H; intros l2 r2 K; cbn [app]; auto; [apply g_skip|apply g_read]; auto. Qed.
Lemma gives_skips : forall x l r i, gives l r i -> gives l r (x ++ i).
Proof. induction x; cbn [app]; intros; auto. apply g_skip. auto. Qed.
Lemma gives_drop : forall l x r i, gives l (x ++ r) i -> gives l r i.
Proof. intros l x r i H. rewrite <- (app_nil_r l). eapply gives_trans; eauto. apply gives_skips. constructor. Qed.
Lemma gives_drop1 : forall l t r i, gives l (t :: r) i -> gives l r i.
Proof. intros l t r i H. apply (gives_drop l [t]). auto. Qed.
Lemma gives_end : forall l r i, gives l r i -> gives l [] i.
Proof. intros l r i H. apply (gives_drop l r). rewrite app_nil_r. auto. Qed.
Lemma gives_frame : forall l r i z, gives l r i -> gives l (r ++ z) (i ++ z).
Proof.
  intros l r i z H. induction H; cbn [app]; [constructor|apply g_skip; auto|].
  rewrite <- app_assoc. apply g_read; auto.
Qed.
Lemma gives_inner : forall l2 x, gives l2 [] x -> forall l r i, gives l (x ++ r) i -> gives (l ++ l2) r i.
Proof. intros. eapply gives_trans; eauto. apply (gives_frame _ _ _ r) in H. auto. Qed.
Lemma gives_tok : forall l p a r i, gives l (a ++ r) i -> written p a -> gives (l ++ [p]) r i.
Proof. intros. eapply gives_trans; eauto. apply g_read; auto. constructor. Qed.
Lemma gives_tok1 : forall l p t r i, gives l (t :: r) i -> written p [t] -> gives (l ++ [p]) r i.
Proof. intros. apply (gives_tok l p [t]); auto. Qed.
Lemma gives_taken : forall l r i, gives l r i -> taken l i.
Proof. intros l r i H. induction H; constructor; auto. Qed.
Lemma key1 : forall k t, lower t = lower k -> written (Key k) [t].
Proof. intros k t H. apply w_key. cbn. auto. Qed.

Definition optl (o : option str) : list str := match o with Some t => [t] | None => [] end.
(** after an expression: [nt] and [r] are left, except that an opening quote may have been used *)
Definition after (l : list piece) (nt : option str) (r i : list str) : Prop :=
  gives l (optl nt ++ r) i \/ (exists q, nt = Some q /\ mem q QUOTES = true) /\ gives l r i.

Lemma after_drop : forall l nt r i, after l nt r i -> gives l r i.
Proof. intros l nt r i [H|[_ H]]; auto. eapply gives_drop; eauto. Qed.
Lemma after_tok : forall l t r i, after l (Some t) r i -> mem t QUOTES = false -> gives l (t :: r) i.
Proof. intros l t r i [H|[(q & E & M) _]] F; auto. inversion E; subst. congruence. Qed.
Lemma after_key : forall l nt k r i, after l nt r i -> olow_is nt k = true -> mem k QUOTES = false ->
  exists t, nt = Some t /\ lower t = k /\ gives l (t :: r) i.
Proof.
  intros l [t|] k r i H E F; cbn in E; [|discriminate]. apply str_eqb_eq in E. exists t. repeat split; auto.
  apply after_tok; auto. destruct (mem t QUOTES) eqn:M; auto. exfalso.
  apply mem_In in M. apply mem_false in F. apply F. subst k. cbn in M. destruct M as [<-|[<-|[<-|[]]]]; cbn; auto.
Qed.
Lemma after_sym : forall l nt k r i, after l nt r i -> opt_eqb nt k = true -> mem k QUOTES = false -> gives l (k :: r) i.
Proof. intros l [t|] k r i H E F; cbn in E; [|discriminate]. apply str_eqb_eq in E. subst. apply after_tok; auto. Qed.
Lemma gives_key : forall l nt k r i, gives l (optl nt ++ r) i -> olow_is nt k = true ->
  exists t, nt = Some t /\ lower t = k /\ gives l (t :: r) i.
Proof. intros l [t|] k r i H E; cbn in E; [|discriminate]. apply str_eqb_eq in E. eauto. Qed.

Lemma next_opt_gives : forall eos ts nt r, next_opt eos ts = Ok (nt, r) -> ts = optl nt ++ r.
Proof. intros eos [|t ts] nt r H; cbn in H; [destruct eos|]; inversion H; auto. Qed.
Lemma next_req_gives : forall eos ts t r, next_req eos ts = Ok (t, r) -> ts = t :: r.
Proof. intros eos [|t' ts] t r H; cbn in H; [destruct eos|]; inversion H; auto. Qed.
Lemma until_close_loop_app : forall eos ts d a r, until_close_loop eos d ts = Ok (a, r) -> exists c, ts = a ++ c ++ r.
Proof.
  intros eos ts. induction ts as [|t ts IH]; intros d a r H; cbn [until_close_loop] in H.
  - destruct eos; inversion H; subst. exists []. auto.
  - destruct (str_eqb t ")" && _)%bool; [inversion H; subst; exists [t]; auto|].
    destruct (until_close_loop eos _ ts) as [[a' r']|] eqn:E; cbn [rbind] in H; [|discriminate]. inversion H; subst.
    apply IH in E as [c ->]. exists c. auto.
Qed.
Lemma until_close_gives : forall eos first ts a r, until_close eos first ts = Ok (a, r) ->
  exists s c, optl first ++ ts = s ++ a ++ c ++ r.
Proof.
  intros eos first ts a r H. unfold until_close in H. apply until_close_loop_app in H as [c E].
  destruct first as [[|]|]; cbn [optl app] in *; [exists [[]]|exists []|exists []]; exists c; cbn [app]; rewrite <- E; auto.
Qed.
Lemma until_loop_app : forall eos stop keep ts a b c prev l nt r, until_loop eos stop keep a b c prev ts = Ok (l, nt, r) ->
  ts = l ++ optl nt ++ r.
Proof.
  intros eos stop keep ts. induction ts as [|t ts IH]; intros a b c prev l nt r H; cbn [until_loop] in H.
  - destruct eos; inversion H; subst. auto.
  - match type of H with (if ?x then _ else _) = _ => destruct x end; [inversion H; subst; auto|].
    match type of H with (let '(_, _) := ?x in _) = _ => destruct x as [[a' b'] c'] end.
    destruct (until_loop _ _ _ _ _ _ _ ts) as [[[l' nt'] r']|] eqn:E; cbn [rbind] in H; [|discriminate]. inversion H; subst.
    apply IH in E as ->. auto.
Qed.
Lemma until_one_of_gives : forall eos stop first keep ts et nt r, until_one_of eos stop first keep ts = Ok (et, nt, r) ->
  optl first ++ ts = et ++ optl nt ++ r.
Proof.
  intros eos stop first keep ts et nt r H. unfold until_one_of in H. inv_bind H. destruct a as [[l nt'] r'].
  apply until_loop_app in Hb. inversion H; subst. destruct first; auto.
Qed.
Lemma until_found : forall eos stop first keep ts et nt r, until_one_of eos stop first keep ts = Ok (et, nt, r) ->
  match nt with Some t => mem (lower t) stop = true | None => r = [] end.
Proof.
  assert (L : forall eos stop keep ts a b c prev l nt r, until_loop eos stop keep a b c prev ts = Ok (l, nt, r) ->
    match nt with Some t => mem (lower t) stop = true | None => r = [] end).
  { intros eos stop keep ts. induction ts as [|t ts IH]; intros a b c prev l nt r H; cbn [until_loop] in H.
    - destruct eos; inversion H; subst. auto.
    - destruct (mem (lower t) stop) eqn:M; cbn [andb] in H; [match type of H with (if ?x then _ else _) = _ => destruct x end; [inversion H; subst; auto|]|];
        (match type of H with (let '(_, _) := ?x in _) = _ => destruct x as [[a' b'] c'] end;
         destruct (until_loop _ _ _ _ _ _ _ ts) as [[[l' nt'] r']|] eqn:E; cbn [rbind] in H; [|discriminate]; inversion H; subst; eapply IH; exact E). }
  intros eos stop first keep ts et nt r H. unfold until_one_of in H. inv_bind H. destruct a as [[l nt'] r'].
  inversion H; subst. eapply L; exact Hb.
Qed.
Lemma until_none : forall eos first keep ts et nt r, until_one_of eos [] first keep ts = Ok (et, nt, r) -> nt = None.
Proof.
  assert (L : forall eos keep ts a b c prev l nt r, until_loop eos [] keep a b c prev ts = Ok (l, nt, r) -> nt = None).
  { intros eos keep ts. induction ts as [|t ts IH]; intros a b c prev l nt r H; cbn [until_loop] in H.
    - destruct eos; inversion H; subst. auto.
    - cbn [mem existsb andb] in H. match type of H with (let '(_, _) := ?x in _) = _ => destruct x as [[a' b'] c'] end.
      destruct (until_loop _ _ _ _ _ _ _ ts) as [[[l' nt'] r']|] eqn:E; cbn [rbind] in H; [|discriminate]. inversion H; subst. eauto. }
  intros eos first keep ts et nt r H. unfold until_one_of in H. inv_bind H. destruct a as [[l nt'] r'].
  inversion H; subst. eauto.
Qed.
Lemma until_not_in_loop_app : forall eos kept ts l nt r, until_not_in_loop eos kept ts = Ok (l, nt, r) -> ts = l ++ optl nt ++ r.
Proof.
  intros eos kept ts. induction ts as [|t ts IH]; intros l nt r H; cbn [until_not_in_loop] in H.
  - destruct eos; inversion H; subst. auto.
  - destruct (mem (lower t) kept); [|inversion H; subst; auto].
    destruct (until_not_in_loop eos kept ts) as [[[l' nt'] r']|] eqn:E; cbn [rbind] in H; [|discriminate]. inversion H; subst.
    erewrite IH by reflexivity. auto.
Qed.
Lemma until_not_in_gives : forall eos kept first ts et nt r, until_not_in eos kept first ts = Ok (et, nt, r) ->
  optl first ++ ts = et ++ optl nt ++ r.
Proof.
  intros eos kept first ts et nt r H. unfold until_not_in in H. inv_bind H. destruct a as [[l nt'] r'].
  apply until_not_in_loop_app in Hb. inversion H; subst. destruct first; auto.
Qed.

Definition honest (P : parsers_t) : Prop :=
  (forall eos o ts e nt r, p_expr P eos o ts = Ok (e, nt, r) -> after (pieces e) nt r (optl (o_first o) ++ ts)) /\
  (forall eos ts n, p_select P eos ts = Ok n -> forall t, lower t = "select" -> gives (pieces n) [] (t :: ts)) /\
  (forall ts n, p_from P ts = Ok n -> gives (pieces n) [] ts) /\
  (forall eos ts n, p_stmt P eos ts = Ok n -> gives (pieces n) [] ts) /\
  (forall o x, o_first o = None -> p_expr P None o [] <> Ok x).

(** One step of reading: the goal's hypothesis [G : gives acc cur i] is carried forward *)
Ltac step H :=
  match type of H with
  | rbind (next_opt _ _) _ = Ok _ => let x := fresh "nt" in let r := fresh "ts" in let E := fresh "E" in
    inv_bind H; match goal with [ K : next_opt _ _ = Ok ?a |- _ ] => destruct a as [x r]; apply next_opt_gives in K; rename K into E end
  | rbind (next_req _ _) _ = Ok _ => let x := fresh "t" in let r := fresh "ts" in let E := fresh "E" in
    inv_bind H; match goal with [ K : next_req _ _ = Ok ?a |- _ ] => destruct a as [x r]; apply next_req_gives in K; rename K into E end
  | rbind (until_close _ _ _) _ = Ok _ => let x := fresh "at_" in let r := fresh "ts" in let s := fresh "s" in let c := fresh "c" in let E := fresh "E" in
    inv_bind H; match goal with [ K : until_close _ _ _ = Ok ?a |- _ ] => destruct a as [x r]; apply until_close_gives in K as (s & c & E) end
  | rbind (until_one_of _ _ _ _ _) _ = Ok _ => let x := fresh "et" in let n := fresh "nt" in let r := fresh "ts" in let E := fresh "E" in
    inv_bind H; match goal with [ K : until_one_of _ _ _ _ _ = Ok ?a |- _ ] => destruct a as [[x n] r]; apply until_one_of_gives in K; rename K into E end
  | rbind (until_not_in _ _ _ _) _ = Ok _ => let x := fresh "et" in let n := fresh "nt" in let r := fresh "ts" in let E := fresh "E" in
    inv_bind H; match goal with [ K : until_not_in _ _ _ _ = Ok ?a |- _ ] => destruct a as [[x n] r]; apply until_not_in_gives in K; rename K into E end
  | rbind (rassert _) _ = Ok _ => let E := fresh "A" in
    inv_bind H; match goal with [ K : rassert _ = Ok ?u |- _ ] => apply rassert_Ok in K; clear u; rename K into E end
  end.

Ltac tok G k L := apply (gives_tok1 _ (Key k)) in G; [|apply key1; first [rewrite L; reflexivity|apply str_eqb_eq; exact L]].

Lemma gives_quote : forall l q r i, gives l r i -> mem q QUOTES = true -> gives (l ++ [Quote q]) r i.
Proof. intros l q r i G Q. apply (gives_tok _ (Quote q) []); auto. constructor. auto. Qed.
Lemma string_gives : forall eos ts q p e r, string_parse eos ts q p = Ok (e, r) -> mem q QUOTES = true ->
  forall l i, gives (l ++ match p with Some x => [Text x] | None => [] end) ts i -> gives (l ++ pieces e) r i.
Proof.
  intros eos ts q p e r H Q l i G. unfold string_parse in H. step H. apply (gives_quote _ q) in G; auto.
  rewrite E in G. destruct (opt_eqb nt q).
  - inversion H; subst. cbn [pieces app]. apply gives_drop in G. apply (gives_quote _ q) in G; auto.
    rewrite <- ?app_assoc in *. exact G.
  - step H. destruct nt as [v|]; [|discriminate]. destruct (str_eqb q t); inversion H; subst.
    cbn [pieces optl app] in *. destruct v; cbn [app].
    + apply gives_drop1 in G. apply gives_drop1 in G. apply (gives_quote _ q) in G; auto. rewrite <- ?app_assoc in *. exact G.
    + apply (gives_tok1 _ (Text (n :: v))) in G; [|constructor]. apply gives_drop1 in G. apply (gives_quote _ q) in G; auto.
      rewrite <- ?app_assoc in *. exact G.
Qed.
Lemma string_gives0 : forall eos ts q e r, string_parse eos ts q None = Ok (e, r) -> mem q QUOTES = true ->
  forall l i, gives l ts i -> gives (l ++ pieces e) r i.
Proof. intros. eapply string_gives; eauto. rewrite app_nil_r. auto. Qed.

Section Body.
Variable P : parsers_t.
Hypothesis HP : honest P.

Lemma expr_gives : forall eos o ts e nt r, p_expr P eos o ts = Ok (e, nt, r) ->
  forall l i, gives l (optl (o_first o) ++ ts) i -> after (l ++ pieces e) nt r i.
Proof.
  intros eos o ts e nt r H l i G. destruct HP as [HE _]. destruct (HE _ _ _ _ _ _ H) as [K|[M K]].
  - left. eapply gives_trans; eauto.
  - right. split; auto. eapply gives_trans; eauto.
Qed.
(** an expression read from a list of its own *)
Lemma expr_inner : forall eos o x e nt r, p_expr P eos o x = Ok (e, nt, r) -> o_first o = None -> gives (pieces e) [] x.
Proof.
  intros eos o x e nt r H F. destruct HP as [HE _]. apply HE in H. rewrite F in H. cbn [optl app] in H.
  apply after_drop in H. eapply gives_end; eauto.
Qed.

Lemma exprlist_loop_gives : forall b ts acc p q s es, exprlist_loop P b acc p q s ts = Ok es ->
  gives (flat_map pieces es) [] (acc ++ ts).
Proof.
  intros b ts. induction ts as [ts IH] using (well_founded_induction (Wf_nat.well_founded_ltof _ (@length str))).
  intros acc p q s es H. destruct ts as [|t ts]; cbn [exprlist_loop] in H.
  - inversion H; subst. cbn [flat_map]. apply gives_skips. constructor.
  - match type of H with (let '(_, _) := ?x in _) = _ => destruct x as [[p' q'] s'] end.
    destruct ts as [|n ts].
    + inv_bind H. destruct a as [[e nt] r]. inversion H; subst. cbn [flat_map]. rewrite app_nil_r.
      eapply expr_inner; eauto.
    + destruct (_ && _)%bool.
      * inv_bind H. destruct a as [[e nt] r]. inv_bind H. inversion H; subst. cbn [flat_map].
        apply expr_inner in Hb; auto. apply IH in Hb0; [|unfold Wf_nat.ltof; cbn; auto]. cbn [app] in Hb0.
        eapply gives_trans; [|eauto]. eapply gives_drop1 with (t := n). apply (gives_frame _ _ _ (n :: ts)) in Hb. cbn [app] in Hb.
        rewrite <- app_assoc in Hb. exact Hb.
      * apply IH in H; [|unfold Wf_nat.ltof; cbn; auto]. rewrite <- app_assoc in H. exact H.
Qed.
Lemma exprlist_gives : forall b x es, exprlist P b x = Ok es -> gives (flat_map pieces es) [] x.
Proof. intros b x es H. apply exprlist_loop_gives in H. auto. Qed.

Lemma orderby_item_gives : forall x e, orderby_item P x = Ok e -> gives (pieces e) [] x.
Proof.
  intros x e H. unfold orderby_item in H. step H. inv_bind H. destruct a as [[e' ?] ?]. inversion H; subst.
  apply expr_inner in Hb; auto. cbn [optl app] in E. subst x. cbn [pieces].
  apply (gives_frame _ _ _ (optl nt ++ ts)) in Hb. cbn [app] in Hb.
  assert (olow_is nt "asc" = true -> olow_is nt "desc" = false).
  { destruct nt as [t|]; cbn; auto. intros K. apply str_eqb_eq in K. rewrite K. reflexivity. }
  destruct (olow_is nt "asc") eqn:E1.
  - rewrite H0 by auto. cbn [app]. apply (gives_key _ _ _ _ _ Hb) in E1 as (t & -> & L & G).
    eapply gives_end. eapply gives_tok1; eauto. apply key1; auto.
  - cbn [app]. destruct (olow_is nt "desc") eqn:E2.
    + apply (gives_key _ _ _ _ _ Hb) in E2 as (t & -> & L & G).
      eapply gives_end. eapply gives_tok1; eauto. apply key1; auto.
    + rewrite app_nil_r. eapply gives_end; eauto.
Qed.
Lemma orderby_loop_gives : forall k x es, orderby_loop P k x = Ok es -> gives (flat_map pieces es) [] x.
Proof.
  induction k; intros x es H; cbn [orderby_loop] in H; [discriminate|]. step H. inv_bind H. apply orderby_item_gives in Hb.
  cbn [optl app] in E. subst x. apply (gives_frame _ _ _ (optl nt ++ ts)) in Hb. cbn [app] in Hb.
  destruct (truthy nt).
  - inv_bind H. inversion H; subst. cbn [flat_map]. apply IHk in Hb0. eapply gives_trans; [|eauto]. eapply gives_drop; eauto.
  - inversion H; subst. cbn [flat_map]. rewrite app_nil_r. eapply gives_end; eauto.
Qed.
Lemma orderby_gives : forall x es, orderby P x = Ok es -> gives (flat_map pieces es) [] x.
Proof. intros x es H. eapply orderby_loop_gives; eauto. Qed.

Lemma groupby_gives : forall x args rollup, groupby P x = Ok (args, rollup) ->
  gives ((if rollup then [Key "rollup"] else []) ++ flat_map pieces args) [] x.
Proof.
  intros x args rollup H. unfold groupby in H. step H. subst x. step H. inv_bind H. inversion H; subst. apply exprlist_gives in Hb.
  destruct (str_eqb (lower t) "rollup") eqn:R; cbn [optl app] in E.
  - subst ts. apply (g_read (Key "rollup") [t]); [apply key1, str_eqb_eq; auto|].
    apply (gives_frame _ _ _ (optl nt ++ ts0)) in Hb. cbn [app] in Hb. eapply gives_end; eauto.
  - rewrite E. apply (gives_frame _ _ _ (optl nt ++ ts0)) in Hb. cbn [app] in *. eapply gives_end; eauto.
Qed.
Lemma limit_gives : forall x all e, limit_clause P x = Ok (all, e) ->
  gives (match (all, e) with
       | (true, _) => [Key "all"]
       | (false, Some e) => pieces e
       | (false, None) => [Text "None"] end) [] x.
Proof.
  intros x all e H. unfold limit_clause in H. step H. subst x. destruct (str_eqb (lower t) "all") eqn:A.
  - inversion H; subst. apply (g_read (Key "all") [t]); [apply key1, str_eqb_eq; auto|]. rewrite <- (app_nil_r ts). apply gives_skips. constructor.
  - step H. inv_bind H. destruct a as [[e' ?] ?]. inversion H; subst. apply expr_inner in Hb; auto. cbn [optl app] in *. rewrite E.
    apply (gives_frame _ _ _ (optl nt ++ ts0)) in Hb. cbn [app] in *. eapply gives_end; eauto.
Qed.

Definition pw (w : node * node) : list piece := Key "when" :: pieces (fst w) ++ Key "then" :: pieces (snd w).
Lemma case_loop_gives : forall k nt ts whens l i whens' els, case_loop P k nt ts whens None = Ok (whens', els) ->
  gives (l ++ flat_map pw whens) (optl nt ++ ts) i ->
  gives (l ++ flat_map pw whens' ++ match els with Some x => Key "else" :: pieces x | None => [] end) [] i.
Proof.
  induction k; intros nt ts whens l i whens' els H G; cbn [case_loop] in H; [discriminate|].
  destruct (truthy nt) eqn:T; [|inversion H; subst; rewrite app_nil_r; eapply gives_end; eauto].
  destruct (olow_is nt "when") eqn:W.
  - inv_bind H. destruct a as [[et nt0] ts0]. pose proof (until_found _ _ _ _ _ _ _ _ Hb) as F. apply until_one_of_gives in Hb. rename Hb into E.
    inv_bind H. destruct a as [[w ?] ?]. step H. inv_bind H. destruct a as [[t ?] ?].
    assert (TH : olow_is nt0 "then" = true).
    { destruct nt0 as [th|]; [cbn [mem existsb] in F; rewrite orb_false_r in F; exact F|]. subst ts0. exfalso.
      destruct HP as (_ & _ & _ & _ & HN). destruct et0; [eapply HN; [|eassumption]; reflexivity|discriminate E0]. }
    cbn [optl app] in *. subst ts ts0.
    destruct (gives_key _ _ _ _ _ G W) as (t' & N & L & G'); subst nt.
    apply expr_inner in Hb; auto. apply expr_inner in Hb0; auto.
    eapply IHk; [exact H|].
    rewrite flat_map_app. cbn [flat_map]. rewrite app_nil_r. unfold pw at 2. cbn [fst snd].
    tok G' "when" L.
    eapply gives_inner in G'; [|exact Hb]. destruct (gives_key _ _ _ _ _ G' TH) as (t2 & N2 & L2 & G2). tok G2 "then" L2.
    eapply gives_inner in G2; [|exact Hb0].
    rewrite <- ?app_assoc in *. exact G2.
  - destruct (olow_is nt "else") eqn:W2.
    + inv_bind H. destruct a as [[et nt0] ts0]. pose proof (until_none _ _ _ _ _ _ _ Hb) as ->. apply until_one_of_gives in Hb.
      inv_bind H. destruct a as [[w ?] ?]. cbn [optl app] in *. subst ts.
      destruct (gives_key _ _ _ _ _ G W2) as (t' & N & L & G'); subst nt. apply expr_inner in Hb0; auto.
      tok G' "else" L. eapply gives_inner in G'; [|exact Hb0].
      destruct k; cbn [case_loop truthy] in H; [discriminate|]. inversion H; subst.
      rewrite <- !app_assoc in G'. eapply gives_end. exact G'.
    + eapply IHk; eauto.
Qed.
Lemma case_gives : forall x e t r l i, case_parse P x = Ok e -> lower t = "case" ->
  forall y, lower y = "end" -> gives l (t :: x ++ y :: r) i -> gives (l ++ pieces e) r i.
Proof.
  intros x e t r l i H T y Y G. tok G "case" T.
  assert (X : forall m, gives m [] x -> forall n, pieces n = Key "case" :: m ++ [Key "end"] -> gives (l ++ pieces n) r i).
  { intros m M n ->. eapply gives_inner in G; [|exact M]. tok G "end" Y. rewrite <- ?app_assoc in *. exact G. }
  unfold case_parse in H. step H. destruct (str_eqb (lower t0) "when") eqn:W.
  - inv_bind H. destruct a as [whens els]. inversion H; subst.
    eapply X; [|cbn [pieces app]; rewrite app_assoc; reflexivity].
    eapply (case_loop_gives _ _ _ _ []) in Hb; [exact Hb|]. constructor.
  - step H. inv_bind H. destruct a as [[c ?] ?]. inv_bind H. destruct a as [whens els]. inversion H; subst.
    apply expr_inner in Hb; auto. cbn [optl app] in E0.
    eapply X; [|cbn [pieces app]; rewrite !app_assoc; reflexivity].
    rewrite <- app_assoc.
    eapply (case_loop_gives _ _ _ _ (pieces c)) in Hb0; [exact Hb0|]. cbn [flat_map]. rewrite app_nil_r, E0.
    apply (gives_frame _ _ _ (optl nt ++ ts0)) in Hb. exact Hb.
Qed.

Ltac done_ := first [exact I | rewrite <- ?app_assoc in *; cbn [app] in *; eassumption].
(** [G : gives l (t :: ts) i] *)
Lemma first_gives : forall eos o main ts eo nt r l i, expr_first P eos o main ts = Ok (eo, nt, r) -> gives l (main :: ts) i ->
  match eo with
  | Some e => after (l ++ pieces e) nt r i
  | None => nt = None /\ r = ts /\ mem main QUOTES = false
  end.
Proof.
  intros eos o main ts eo nt r l i H G. unfold expr_first in H.
  destruct (mem main QUOTES) eqn:Q.
  { inv_bind H. destruct a as [e r']. inversion H; subst. left. cbn [optl app]. eapply string_gives0; eauto. eapply gives_drop1; eauto. }
  destruct (isdigit main) eqn:D.
  { inversion H; subst. left. eapply gives_tok1; eauto. constructor; auto. }
  destruct (isdigit (no_dots main)) eqn:D2.
  { inv_bind H. inversion H; subst. left. eapply gives_tok1; eauto. constructor; auto. }
  destruct (mem (lower main) BOOLEAN_VALUES) eqn:B.
  { destruct (mem (lower main) TRUE_VALUES) eqn:T; injection H as <- <- <-; left; eapply gives_tok1; eauto; constructor; auto.
    apply mem_In in B. unfold BOOLEAN_VALUES in B. apply in_app_or in B as [B|B]; apply mem_In in B; auto. unfold str in *. congruence. }
  destruct (mem (lower main) NULL_VALUES) eqn:N.
  { inversion H; subst. left. eapply gives_tok1; eauto. constructor. apply mem_In in N. destruct N as [N|[]]; auto. }
  destruct (str_eqb (lower main) "not") eqn:T.
  { inv_bind H. destruct a as [[e nt'] r']. inversion H; subst. tok G "not" T. eapply expr_gives in Hb; [|exact G].
    rewrite <- app_assoc in Hb. exact Hb. }
  destruct (str_eqb main "(") eqn:T2.
  { step H. inv_bind H. inversion H; subst. apply exprlist_gives in Hb. left. cbn [optl app] in *. subst ts.
    apply gives_drop1 in G. apply gives_drop in G. eapply gives_inner in G; [|exact Hb]. apply gives_drop in G. exact G. }
  destruct (str_eqb main "[") eqn:T3.
  { step H. step H. inv_bind H. step H. inversion H; subst. apply exprlist_gives in Hb. left. cbn [optl app] in *. subst.
    apply gives_drop1 in G. eapply gives_inner in G; [|exact Hb]. apply gives_drop in G. exact G. }
  destruct (str_eqb (lower main) "case") eqn:T4.
  { step H. step H. step H. inv_bind H. inversion H; subst. left. cbn [optl app] in *. subst.
    destruct nt0 as [y|]; [|discriminate]. cbn [optl app] in *.
    eapply case_gives; eauto; apply str_eqb_eq; auto. }
  destruct (str_eqb (lower main) "select") eqn:T5.
  { step H. step H. inv_bind H. inversion H; subst. left. cbn [optl app] in *. subst.
    destruct HP as (_ & HS & _). apply str_eqb_eq in T5. pose proof (HS _ _ _ Hb _ T5) as K.
    change (main :: et ++ optl nt0 ++ optl nt ++ r) with ((main :: et) ++ optl nt0 ++ optl nt ++ r) in G.
    eapply gives_inner in G; [|exact K]. apply gives_drop in G. exact G. }
  inversion H; subst. auto.
Qed.

Ltac fin G := repeat (progress (rewrite <- ?app_assoc, ?app_nil_r; cbn [app])); repeat (progress (rewrite <- ?app_assoc, ?app_nil_r in G; cbn [app] in G)); exact G.
(** [t] is the name of the function; the opening bracket is read *)
Lemma cast_gives : forall eos o ts e r t l i, cast_call P eos o ts = Ok (e, r) -> str_eqb (lower t) "cast" = true ->
  gives l (t :: "(" :: ts) i -> gives (l ++ pieces e) r i.
Proof.
  intros eos o ts e r t l i H T G. unfold cast_call in H. tok G "cast" T. apply gives_drop1 in G. step H. inv_bind H. destruct a as [[col ?] ?].
  step H. step H. step H. step H. inversion H; subst. cbn [optl app] in *. subst ts. apply expr_inner in Hb; auto.
  eapply gives_inner in G; [|exact Hb]. destruct (gives_key _ _ _ _ _ G A) as (y & -> & L & G'). tok G' "as" L.
  apply (gives_tok1 _ (Text t0)) in G'; [|constructor]. apply gives_drop1 in G'. cbn [pieces]. fin G'.
Qed.
Lemma count_gives : forall eos ts e r t l i, count_call P eos ts = Ok (e, r) -> str_eqb (lower t) "count" = true ->
  gives l (t :: "(" :: ts) i -> gives (l ++ pieces e) r i.
Proof.
  intros eos ts e r t l i H T G. unfold count_call in H. tok G "count" T. apply gives_drop1 in G. step H. step H. inv_bind H. inversion H; subst.
  apply exprlist_gives in Hb. cbn [pieces].
  destruct (str_eqb (lower t0) "distinct") eqn:D; cbn [optl app] in *.
  - tok G "distinct" D. subst ts0. apply gives_drop in G. eapply gives_inner in G; [|exact Hb]. apply gives_drop in G. fin G.
  - rewrite E0 in G. apply gives_drop in G. eapply gives_inner in G; [|exact Hb]. apply gives_drop in G. fin G.
Qed.
Lemma other_gives : forall eos o ts e r t l i, other_call P eos o t ts = Ok (e, r) ->
  gives l (t :: "(" :: ts) i -> gives (l ++ pieces e) r i.
Proof.
  intros eos o ts e r t l i H G. unfold other_call in H. apply (gives_tok1 _ (Key t)) in G; [|apply key1; auto]. apply gives_drop1 in G. step H. inv_bind H. inversion H; subst.
  apply exprlist_gives in Hb. cbn [pieces optl app] in *. subst ts. apply gives_drop in G. eapply gives_inner in G; [|exact Hb]. apply gives_drop in G. fin G.
Qed.
Lemma array_agg_gives : forall eos o ts e r t l i, array_agg_call P eos o ts = Ok (e, r) -> str_eqb (lower t) "array_agg" = true ->
  gives l (t :: "(" :: ts) i -> gives (l ++ pieces e) r i.
Proof.
  intros eos o ts e r t l i H T G. unfold array_agg_call in H. tok G "array_agg" T. apply gives_drop1 in G. step H. step H. inv_bind H. destruct a as [[col ?] ?].
  apply expr_inner in Hb; auto. subst ts.
  assert (G1 : gives ((l ++ [Key "array_agg"]) ++ (if str_eqb (lower t0) "distinct" then [Key "distinct"] else []) ++ pieces col) (optl nt ++ ts1) i).
  { destruct (str_eqb (lower t0) "distinct") eqn:D; cbn [optl app] in *.
    - tok G "distinct" D. subst ts0. eapply gives_inner in G; [|exact Hb]. fin G.
    - rewrite E0 in G. eapply gives_inner in G; [|exact Hb]. fin G. }
  clear G Hb E0. revert H G1. generalize (str_eqb (lower t0) "distinct"). intros d H G.
  inv_bind H. destruct a as [[[ign resp] nt2] ts2].
  match type of G with gives ?m _ _ => assert (G2 : gives (m ++ (if ign then [Key "ignore"; Key "nulls"] else []) ++ (if resp then [Key "respect"; Key "nulls"] else [])) (optl nt2 ++ ts2) i) end.
  { destruct (olow_is nt "ignore") eqn:I1; [|destruct (olow_is nt "respect") eqn:I2].
    - step Hb. step Hb. step Hb. inversion Hb; subst. destruct (gives_key _ _ _ _ _ G I1) as (y & -> & L & G').
      tok G' "ignore" L. tok G' "nulls" A. fin G'.
    - step Hb. step Hb. step Hb. inversion Hb; subst. destruct (gives_key _ _ _ _ _ G I2) as (y & -> & L & G').
      tok G' "respect" L. tok G' "nulls" A. fin G'.
    - inversion Hb; subst. fin G. }
  clear G Hb. rename G2 into G. inv_bind H. destruct a as [[order nt3] ts3].
  match type of G with gives ?m _ _ => assert (G2 : gives (m ++ match order with Some l => Key "order" :: Key "by" :: flat_map pieces l | None => [] end) (optl nt3 ++ ts3) i) end.
  { destruct (olow_is nt2 "order") eqn:I1.
    - step Hb. step Hb. step Hb. inv_bind Hb. inversion Hb; subst. destruct (gives_key _ _ _ _ _ G I1) as (y & -> & L & G').
      tok G' "order" L. tok G' "by" A. cbn [optl app] in *. subst. apply orderby_gives in Hb0. eapply gives_inner in G'; [|exact Hb0]. fin G'.
    - inversion Hb; subst. fin G. }
  clear G Hb. rename G2 into G. inv_bind H. destruct a as [[limit nt4] ts4].
  match type of G with gives ?m _ _ => assert (G2 : gives (m ++ match limit with Some z => [Key "limit"; Whole z] | None => [] end) (optl nt4 ++ ts4) i) end.
  { destruct (olow_is nt3 "limit") eqn:I1.
    - step Hb. inv_bind Hb. step Hb. inversion Hb; subst. destruct (gives_key _ _ _ _ _ G I1) as (y & -> & L & G').
      tok G' "limit" L. apply (gives_tok1 _ (Whole a)) in G'; [|apply w_int; auto]. fin G'.
    - inversion Hb; subst. fin G. }
  clear G Hb. rename G2 into G. step H. inversion H; subst. apply gives_drop in G. cbn [pieces]. fin G.
Qed.

Lemma call_gives : forall eos o main ts e nt r l i, call P eos o main ts = Ok (e, nt, r) ->
  gives l (main :: "(" :: ts) i -> gives (l ++ pieces e) (optl nt ++ r) i.
Proof.
  intros eos o main ts e nt r l i H G. unfold call in H. inv_bind H. destruct a as [f r1].
  assert (G1 : gives (l ++ pieces f) r1 i).
  { destruct (str_eqb (lower main) "cast") eqn:C1; [eapply cast_gives; eauto|].
    destruct (str_eqb (lower main) "array_agg") eqn:C2; [eapply array_agg_gives; eauto|].
    destruct (str_eqb (lower main) "count") eqn:C3; [eapply count_gives; eauto|]. eapply other_gives; eauto. }
  clear G Hb. step H. subst r1. destruct (truthy nt0 && olow_is nt0 "filter") eqn:F.
  - apply andb_prop in F as [_ F]. step H. step H. step H. destruct at_ as [|w rest]; [discriminate|]. step H. inv_bind H. destruct a as [[cond ?] ?].
    step H. inversion H; subst. destruct (gives_key _ _ _ _ _ G1 F) as (y & -> & L & G'). tok G' "filter" L. apply gives_drop1 in G'.
    apply expr_inner in Hb; auto. cbn [optl app] in *. subst. apply gives_drop in G'. tok G' "where" A0. eapply gives_inner in G'; [|exact Hb].
    apply gives_drop in G'. cbn [pieces]. fin G'.
  - inversion H; subst. auto.
Qed.

Lemma quote_low : forall nt, olow_in nt QUOTES = true -> exists q, nt = Some q /\ mem q QUOTES = true.
Proof.
  intros [q|] H; cbn [olow_in olower opt_mem] in H; [|discriminate]. exists q. split; auto.
  assert (X : forall c d, lower_c c = d -> (d = 39 \/ d = 34 \/ d = 96)%N -> c = d).
  { intros c d <- D. unfold lower_c in *. destruct (is_upper_c c) eqn:U; auto. unfold is_upper_c in U.
    apply andb_prop in U as [U1 U2]. apply N.leb_le in U1, U2. lia. }
  apply mem_In in H. apply mem_In. cbn in H.
  assert (Y : forall d, d :: [] = lower q -> (d = 39 \/ d = 34 \/ d = 96)%N -> q = [d]).
  { intros d E D. destruct q as [|c [|]]; cbn in E; inversion E. f_equal. subst d. apply X; auto. }
  cbn. destruct H as [H|[H|[H|[]]]]; symmetry in H || idtac.
  - left. symmetry. apply Y; auto.
  - right. left. symmetry. apply Y; auto.
  - right. right. left. symmetry. apply Y; auto.
Qed.

Lemma second_gives : forall eos o main nt ts e nt' r l i, expr_second P eos o main nt ts = Ok (e, nt', r) ->
  gives l (main :: optl nt ++ ts) i -> after (l ++ pieces e) nt' r i.
Proof.
  intros eos o main nt ts e nt' r l i H G. unfold expr_second in H.
  destruct (opt_eqb nt "(") eqn:C.
  { destruct nt as [n|]; [|discriminate]. cbn in C. apply str_eqb_eq in C. subst n. left. eapply call_gives; eauto. }
  destruct (mem (lower main) PARTS && olow_is nt "from") eqn:C1.
  { apply andb_prop in C1 as [_ F]. inv_bind H. destruct a as [[x nt1] r1]. inversion H; subst.
    apply (gives_tok1 _ (Text main)) in G; [|constructor]. destruct (gives_key _ _ _ _ _ G F) as (y & -> & L & G').
    tok G' "from" L. eapply expr_gives in Hb; [|exact G']. cbn [pieces]. fin Hb. }
  destruct (mem (lower main) TYPE_VALUES && o_can_be_type o).
  { inversion H; subst. left. apply (gives_tok1 _ (Text main)) in G; [|constructor]. exact G. }
  destruct (opt_eqb nt "[") eqn:C2.
  { step H. inv_bind H. step H. inversion H; subst. left. cbn [optl app] in *. subst. apply (gives_tok1 _ (Text main)) in G; [|constructor].
    apply exprlist_gives in Hb. apply gives_drop in G. eapply gives_inner in G; [|exact Hb]. apply gives_drop in G. cbn [pieces]. fin G. }
  destruct (str_eqb main "-" && match nt with Some n => isdigit n | None => false end) eqn:C3.
  { apply andb_prop in C3 as [M D]. apply str_eqb_eq in M. destruct nt as [n|]; [|discriminate]. step H. inversion H; subst. left.
    apply (gives_tok _ (Whole (- Z.of_N (N_of_digits n))) ["-"; n]); [exact G|constructor; auto]. }
  destruct (str_eqb main "-" && match nt with Some n => isdigit (no_dots n) | None => false end) eqn:C4.
  { apply andb_prop in C4 as [M D]. apply str_eqb_eq in M. destruct nt as [n|]; [|discriminate]. inv_bind H. step H. inversion H; subst. left.
    apply (gives_tok _ (Decimal (45%N :: a)) ["-"; n]); [exact G|constructor; auto]. }
  destruct (mem (lower main) PREFIXES && olow_in nt QUOTES) eqn:C5.
  { apply andb_prop in C5 as [M D]. apply quote_low in D as (q & -> & Q). inv_bind H. destruct a as [x r1]. inversion H; subst.
    right. split; [eauto|].
    eapply string_gives; eauto. apply (gives_tok1 _ (Text main)) in G; [|constructor]. apply gives_drop1 in G. exact G. }
  inversion H; subst. left. apply (gives_tok1 _ (Text main)) in G; [|constructor]. exact G.
Qed.

Lemma head_gives : forall eos o main ts e nt r i, expr_head P eos o main ts = Ok (e, nt, r) -> gives [] (main :: ts) i ->
  after (pieces e) nt r i.
Proof.
  intros eos o main ts e nt r i H G. unfold expr_head in H. inv_bind H. destruct a as [[eo nt1] r1].
  eapply first_gives in Hb; [|exact G]. inv_bind H. destruct a as [nt2 r2].
  destruct eo as [x|].
  - inversion H; subst. cbn [app] in Hb. destruct nt1 as [t|]; cbn [is_none] in Hb0.
    + inversion Hb0; subst. auto.
    + apply next_opt_gives in Hb0. subst. apply after_drop in Hb. left. auto.
  - destruct Hb as (-> & -> & Q). cbn [is_none] in Hb0. apply next_opt_gives in Hb0. subst.
    eapply second_gives in H; [|exact G]. auto.
Qed.

Lemma over_gives : forall eos e nt ts e' nt' r i, over_clause P eos e nt ts = Ok (e', nt', r) -> after (pieces e) nt ts i ->
  after (pieces e') nt' r i.
Proof.
  intros eos e nt ts e' nt' r i H G. unfold over_clause in H. destruct (olow_is nt "over") eqn:O; [|inversion H; subst; auto].
  apply (after_key _ _ "over") in G as (y & -> & L & G); auto. tok G "over" L.
  step H. subst ts. destruct (negb (opt_eqb nt "(")); [discriminate|]. step H. cbn [optl app] in *. subst ts0. apply gives_drop in G. apply gives_drop in G.
  assert (X : forall m, gives m [] at_ -> gives ((pieces e ++ [Key "over"]) ++ m) ts i).
  { intros m M. eapply gives_inner in G; [|exact M]. apply gives_drop in G. auto. }
  clear G. step H. inv_bind H. destruct a as [[partition ant] at1].
  assert (G1 : gives (match partition with Some l => Key "partition" :: Key "by" :: flat_map pieces l | None => [] end) (optl ant ++ at1) at_).
  { assert (G0 : gives [] (optl nt0 ++ ts0) at_) by (rewrite <- E; constructor). destruct (olow_is nt0 "partition") eqn:T.
    - step Hb. destruct (negb (truthy nt1) || negb (olow_is nt1 "by")) eqn:B; [discriminate|]. apply orb_false_elim in B as [_ B].
      apply negb_false_iff in B. step Hb. inv_bind Hb. inversion Hb; subst. cbn [optl app] in *. subst.
      destruct (gives_key _ _ _ _ _ G0 T) as (z & -> & L1 & G1). tok G1 "partition" L1.
      destruct (gives_key _ _ _ _ _ G1 B) as (z' & -> & L2 & G2). tok G2 "by" L2. apply exprlist_gives in Hb0.
      eapply gives_inner in G2; [|exact Hb0]. fin G2.
    - inversion Hb; subst. auto. }
  clear Hb E. inv_bind H. destruct a as [[order ant2] at2].
  match type of G1 with gives ?m _ _ => assert (G2 : gives (m ++ match order with Some l => Key "order" :: Key "by" :: flat_map pieces l | None => [] end) (optl ant2 ++ at2) at_) end.
  { destruct (olow_is ant "order") eqn:T.
    - step Hb. destruct (negb (truthy nt1) || negb (olow_is nt1 "by")) eqn:B; [discriminate|]. apply orb_false_elim in B as [_ B].
      apply negb_false_iff in B. step Hb. inv_bind Hb. inversion Hb; subst. cbn [optl app] in *. subst.
      destruct (gives_key _ _ _ _ _ G1 T) as (z & -> & L1 & G2). tok G2 "order" L1.
      destruct (gives_key _ _ _ _ _ G2 B) as (z' & -> & L2 & G3). tok G3 "by" L2. apply orderby_gives in Hb0.
      eapply gives_inner in G3; [|exact Hb0]. fin G3.
    - inversion Hb; subst. fin G1. }
  clear Hb G1. inv_bind H. rename a into frame. step H. inversion H; subst. left. cbn [pieces].
  match type of G2 with gives ?m _ _ => assert (G3 : gives (m ++ match frame with Some (rr, f) => [Text rr; Key f] | None => [] end) [] at_) end.
  { destruct ant2 as [rr|]; [|inversion Hb; subst; rewrite app_nil_r; eapply gives_end; eauto].
    destruct (mem (lower rr) ["rows"; "range"]); [|inversion Hb; subst; rewrite app_nil_r; eapply gives_end; eauto].
    step Hb. inversion Hb; subst. cbn [optl app] in *. subst. apply (gives_tok1 _ (Text rr)) in G2; [|constructor].
    apply (gives_tok _ (Key (join " " et))) in G2; [|constructor; auto]. eapply gives_end. fin G2. }
  apply X in G3. fin G3.
Qed.

Lemma dot_gives : forall k eos u e nt ts e' nt' r i, dot_loop P k eos u e nt ts = Ok (e', nt', r) -> after (pieces e) nt ts i ->
  after (pieces e') nt' r i.
Proof.
  induction k; intros eos u e nt ts e' nt' r i H G; cbn [dot_loop] in H; (destruct (opt_eqb nt ".") eqn:D; [|inversion H; subst; auto]).
  - discriminate.
  - inv_bind H. destruct a as [[x nt1] r1]. eapply IHk; [exact H|]. apply (after_sym _ _ ".") in G; auto.
    apply (gives_tok1 _ (Text ".")) in G; [|constructor]. eapply expr_gives in Hb; [|exact G]. cbn [pieces]. fin Hb.
Qed.
Lemma index_gives : forall k eos e nt ts e' nt' r i, index_loop P k eos e nt ts = Ok (e', nt', r) -> after (pieces e) nt ts i ->
  after (pieces e') nt' r i.
Proof.
  induction k; intros eos e nt ts e' nt' r i H G; cbn [index_loop] in H; (destruct (opt_eqb nt "[") eqn:D; [|inversion H; subst; auto]).
  - discriminate.
  - step H. inv_bind H. step H. eapply IHk; [exact H|]. apply (after_sym _ _ "[") in G; auto. apply gives_drop1 in G.
    cbn [optl app] in *. subst. apply exprlist_gives in Hb. eapply gives_inner in G; [|exact Hb]. apply gives_drop in G. left. exact G.
Qed.
Lemma postfix_gives : forall eos o e nt ts e' nt' r i, expr_postfix P eos o e nt ts = Ok (e', nt', r) -> after (pieces e) nt ts i ->
  after (pieces e') nt' r i.
Proof.
  intros eos o e nt ts e' nt' r i H G. unfold expr_postfix in H. inv_bind H. destruct a as [[e1 nt1] r1]. eapply dot_gives in Hb; [|exact G].
  inv_bind H. destruct a as [[e2 nt2] r2]. eapply index_gives; [exact H|].
  destruct nt1 as [op|]; [|inversion Hb0; subst; auto].
  destruct (mem op ["+"; "-"; "*"; "/"] && negb (o_chained o)) eqn:M; [|inversion Hb0; subst; auto].
  apply andb_prop in M as [M _]. inv_bind Hb0. destruct a as [[x nt3] r3]. inversion Hb0; subst.
  apply after_tok in Hb; [|apply mem_In in M; destruct M as [<-|[<-|[<-|[<-|[]]]]]; reflexivity].
  apply (gives_tok1 _ (Text op)) in Hb; [|constructor]. eapply expr_gives in Hb1; [|exact Hb]. cbn [pieces]. fin Hb1.
Qed.

Lemma keyword_no_quote : forall t l, mem (lower t) l = true -> forallb (fun k => negb (mem k QUOTES)) l = true -> mem t QUOTES = false.
Proof.
  intros t l M F. destruct (mem t QUOTES) eqn:Q; auto. exfalso. rewrite forallb_forall in F. apply mem_In in M. apply F in M.
  apply mem_In in Q. cbn in Q. destruct Q as [<-|[<-|[<-|[]]]]; vm_compute in M; discriminate.
Qed.
Lemma compare_gives : forall eos o e nt ts e' nt' r i, expr_compare P eos o e nt ts = Ok (e', nt', r) -> after (pieces e) nt ts i ->
  after (pieces e') nt' r i.
Proof.
  intros eos o e nt ts e' nt' r i H G. unfold expr_compare in H. destruct nt as [sym|]; [|inversion H; subst; auto].
  destruct (mem (lower sym) PREDICATES) eqn:M.
  { apply after_tok in G; [|eapply keyword_no_quote; eauto].
    inv_bind H. destruct a as [[first symbol] r1]. inv_bind H. destruct a as [[x nt1] r2]. inversion H; subst.
    assert (G1 : gives (pieces e ++ [Key symbol]) (optl first ++ r1) i).
    { destruct (str_eqb (lower sym) "is") eqn:I1; [|destruct (str_eqb (lower sym) "not") eqn:I2].
      - step Hb. destruct (str_eqb (lower t) "not") eqn:N; inversion Hb; subst; cbn [optl app] in *.
        + apply (gives_tok _ (Key "is not") [sym; t]) in G; [exact G|]. constructor. apply str_eqb_eq in I1, N.
          change (join " " [sym; t]) with (sym ++ " " ++ t). rewrite !lower_app, I1, N. reflexivity.
        + apply (gives_tok1 _ (Key symbol)) in G; [exact G|apply key1; auto].
      - step Hb. destruct (str_eqb (lower t) "in") eqn:N; inversion Hb; subst; cbn [optl app] in *.
        + apply (gives_tok _ (Key "not in") [sym; t]) in G; [exact G|]. constructor. apply str_eqb_eq in I2, N.
          change (join " " [sym; t]) with (sym ++ " " ++ t). rewrite !lower_app, I2, N. reflexivity.
        + apply (gives_tok1 _ (Key symbol)) in G; [exact G|apply key1; auto].
      - inversion Hb; subst. apply (gives_tok1 _ (Key symbol)) in G; [exact G|apply key1; auto]. }
    eapply expr_gives in Hb0; [|exact G1]. cbn [pieces]. fin Hb0. }
  destruct (str_eqb (lower sym) "between") eqn:B.
  { apply after_tok in G; [|apply (keyword_no_quote sym ["between"]); [cbn [mem existsb]; rewrite B; reflexivity|reflexivity]].
    inv_bind H. destruct a as [[x nt1] r1]. destruct (negb (olow_is nt1 "and")) eqn:A; [discriminate|]. apply negb_false_iff in A.
    inv_bind H. destruct a as [[y nt2] r2]. inversion H; subst.
    apply (gives_tok1 _ (Key sym)) in G; [|apply key1; auto]. eapply expr_gives in Hb; [|exact G].
    apply (after_key _ _ "and") in Hb as (z & -> & L & G2); auto. tok G2 "and" L. eapply expr_gives in Hb0; [|exact G2]. cbn [pieces]. fin Hb0. }
  destruct (mem sym BITWISE_OPERATORS) eqn:W; [|inversion H; subst; auto].
  inv_bind H. destruct a as [[x nt1] r1]. inversion H; subst.
  apply after_tok in G; [|apply mem_In in W; cbn in W; repeat destruct W as [<-|W]; try reflexivity; contradiction].
  apply (gives_tok1 _ (Text sym)) in G; [|constructor]. eapply expr_gives in Hb; [|exact G]. cbn [pieces]. fin Hb.
Qed.
Lemma bool_gives : forall eos o e nt ts e' nt' r i, expr_bool P eos o e nt ts = Ok (e', nt', r) -> after (pieces e) nt ts i ->
  after (pieces e') nt' r i.
Proof.
  intros eos o e nt ts e' nt' r i H G. unfold expr_bool in H. destruct nt as [sym|]; [|inversion H; subst; auto].
  destruct (mem (lower sym) BOOL_PREDICATES) eqn:M; [|inversion H; subst; auto].
  apply after_tok in G; [|eapply keyword_no_quote; eauto].
  inv_bind H. destruct a as [[x nt1] r2]. apply (gives_tok1 _ (Key sym)) in G; [|apply key1; auto]. eapply expr_gives in Hb; [|exact G].
  destruct x; inversion H; subst; cbn [pieces] in *; fin Hb.
Qed.
Lemma except_gives : forall eos e nt ts e' nt' r i, expr_except P eos e nt ts = Ok (e', nt', r) -> after (pieces e) nt ts i ->
  after (pieces e') nt' r i.
Proof.
  intros eos e nt ts e' nt' r i H G. unfold expr_except in H. destruct (olow_is nt "except") eqn:O; [|inversion H; subst; auto].
  apply (after_key _ _ "except") in G as (y & -> & L & G); auto. tok G "except" L.
  step H. destruct (negb (opt_eqb nt "(")); [discriminate|]. step H. inv_bind H. step H. inversion H; subst. cbn [optl app] in *. subst.
  apply exprlist_gives in Hb. apply gives_drop in G. apply gives_drop in G. eapply gives_inner in G; [|exact Hb]. apply gives_drop in G.
  left. cbn [pieces]. fin G.
Qed.
Lemma replace_gives : forall eos e nt ts e' nt' r i, expr_replace P eos e nt ts = Ok (e', nt', r) -> after (pieces e) nt ts i ->
  after (pieces e') nt' r i.
Proof.
  intros eos e nt ts e' nt' r i H G. unfold expr_replace in H. destruct (olow_is nt "replace") eqn:O; [|inversion H; subst; auto].
  apply (after_key _ _ "replace") in G as (y & -> & L & G); auto. tok G "replace" L.
  step H. destruct (negb (opt_eqb nt "(")); [discriminate|]. step H. inv_bind H. step H. step H. inversion H; subst. cbn [optl app] in *. subst.
  apply exprlist_gives in Hb. apply gives_drop in G. apply gives_drop in G. eapply gives_inner in G; [|exact Hb]. apply gives_drop in G.
  left. cbn [pieces]. fin G.
Qed.
Lemma alias_gives : forall eos o e nt ts e' nt' r i, expr_alias P eos o e nt ts = Ok (e', nt', r) -> after (pieces e) nt ts i ->
  after (pieces e') nt' r i.
Proof.
  intros eos o e nt ts e' nt' r i H G. unfold expr_alias in H. destruct nt as [t|]; [|inversion H; subst; auto].
  match type of H with (if ?x then _ else _) = _ => destruct x; [|inversion H; subst; auto] end.
  destruct (str_eqb (lower t) "as") eqn:A.
  { apply after_tok in G; [|apply (keyword_no_quote t ["as"]); [cbn [mem existsb]; rewrite A; reflexivity|reflexivity]].
    inv_bind H. destruct a as [[x nt1] r1]. step H. inversion H; subst. tok G "as" A. eapply expr_gives in Hb; [|exact G].
    apply after_drop in Hb. left. cbn [pieces]. fin Hb. }
  destruct (mem t QUOTES) eqn:Q.
  { inv_bind H. destruct a as [x r1]. step H. inversion H; subst. apply after_drop in G. eapply string_gives0 in Hb; [|assumption|exact G].
    left. cbn [pieces]. fin Hb. }
  step H. inversion H; subst. apply after_tok in G; auto. apply (gives_tok1 _ (Text t)) in G; [|constructor]. left. cbn [pieces]. fin G.
Qed.
Lemma tail_gives : forall eos o e nt ts e' nt' r i, expr_tail P eos o e nt ts = Ok (e', nt', r) -> after (pieces e) nt ts i ->
  after (pieces e') nt' r i.
Proof.
  intros eos o e nt ts e' nt' r i H G. unfold expr_tail in H. destruct (o_right_hand o || o_chained o); [inversion H; subst; auto|].
  inv_bind H. destruct a as [[e1 nt1] r1]. eapply compare_gives in Hb; [|exact G]. clear G.
  inv_bind H. destruct a as [[e2 nt2] r2]. eapply bool_gives in Hb0; [|exact Hb]. clear Hb.
  inv_bind H. destruct a as [[e3 nt3] r3]. eapply except_gives in Hb; [|exact Hb0]. clear Hb0.
  inv_bind H. destruct a as [[e4 nt4] r4]. eapply replace_gives in Hb0; [|exact Hb]. clear Hb.
  eapply alias_gives; eauto.
Qed.
Lemma body_gives : forall eos o ts e nt r, expr_body P eos o ts = Ok (e, nt, r) -> after (pieces e) nt r (optl (o_first o) ++ ts).
Proof.
  intros eos o ts e nt r H. unfold expr_body in H. inv_bind H. destruct a as [main r1].
  assert (G : gives [] (main :: r1) (optl (o_first o) ++ ts)).
  { destruct (o_first o) as [[|]|]; [|inversion Hb; subst; constructor|]; apply next_req_gives in Hb; subst; cbn [optl app]; repeat constructor. }
  inv_bind H. destruct a as [[e1 nt1] r2]. eapply head_gives in Hb0; [|exact G]. clear G Hb.
  inv_bind H. destruct a as [[e2 nt2] r3]. eapply over_gives in Hb; [|exact Hb0]. clear Hb0.
  inv_bind H. destruct a as [[e3 nt3] r4]. eapply postfix_gives in Hb0; [|exact Hb]. clear Hb.
  eapply tail_gives; eauto.
Qed.

Lemma select_gives : forall eos ts n, select_body P eos ts = Ok n -> forall t, lower t = "select" -> gives (pieces n) [] (t :: ts).
Proof.
  intros eos ts n H t0 T. set (i := t0 :: ts). assert (G : gives [] (t0 :: ts) i) by constructor. clearbody i. tok G "select" T.
  unfold select_body in H. step H. subst ts. inv_bind H. destruct a as [[[[all distinct] don] first] r1].
  match type of G with gives ?m _ _ => assert (G1 : gives (m ++ (if all then [Key "all"] else []) ++ (if distinct then [Key "distinct"] else [])
    ++ match don with Some l => Key "on" :: flat_map pieces l | None => [] end) (optl first ++ r1) i) end.
  { destruct (str_eqb (lower t) "all") eqn:A; [|destruct (str_eqb (lower t) "distinct") eqn:D].
    - inversion Hb; subst. tok G "all" A. exact G.
    - tok G "distinct" D. step Hb. subst ts0. destruct (str_eqb (lower t1) "on") eqn:O.
      + tok G "on" O. step Hb. step Hb. inv_bind Hb. inversion Hb; subst. cbn [optl app] in *. subst. apply exprlist_gives in Hb0.
        apply gives_drop1 in G. apply gives_drop in G. eapply gives_inner in G; [|exact Hb0]. apply gives_drop in G. fin G.
      + inversion Hb; subst. exact G.
    - inversion Hb; subst. exact G. }
  clear G Hb. step H. rewrite E in G1. clear E. inv_bind H. apply exprlist_gives in Hb. eapply gives_inner in G1; [|exact Hb]. clear Hb. rename a into exprs.
  rename G1 into G. inv_bind H. destruct a as [[from_ nt1] r2].
  match type of G with gives ?m _ _ => assert (G1 : gives (m ++ match from_ with Some f => Key "from" :: pieces f | None => [] end) (optl nt1 ++ r2) i) end.
  { destruct (olow_is nt "from") eqn:I1; [|inversion Hb; subst; rewrite app_nil_r; exact G].
    step Hb. inv_bind Hb. inversion Hb; subst. cbn [optl app] in *. subst. destruct (gives_key _ _ _ _ _ G I1) as (z & -> & L1 & G2). tok G2 "from" L1.
    destruct HP as (_ & _ & HF & _). apply HF in Hb0. eapply gives_inner in G2; [|exact Hb0]. fin G2. }
  clear G Hb. rename G1 into G. inv_bind H. destruct a as [[where_ nt2] r3].
  match type of G with gives ?m _ _ => assert (G1 : after (m ++ match where_ with Some f => Key "where" :: pieces f | None => [] end) nt2 r3 i) end.
  { destruct (olow_is nt1 "where") eqn:I1; [|inversion Hb; subst; rewrite app_nil_r; left; exact G].
    inv_bind Hb. destruct a as [[x nt3] r4]. inversion Hb; subst. destruct (gives_key _ _ _ _ _ G I1) as (z & -> & L1 & G2). tok G2 "where" L1.
    eapply expr_gives in Hb0; [|exact G2]. fin Hb0. }
  clear G Hb. rename G1 into G. inv_bind H. destruct a as [[group nt3] r4].
  match type of G with after ?m _ _ _ => assert (G1 : after (m ++ match group with
       | Some (args, rollup, each) =>
         Key "group" :: (if each then [Key "each"] else []) ++ Key "by" :: (if rollup then [Key "rollup"] else [])
         ++ flat_map pieces args
       | None => [] end) nt3 r4 i) end.
  { destruct (olow_is nt2 "group") eqn:I1; [|inversion Hb; subst; rewrite app_nil_r; exact G].
    step Hb. subst r3. apply (after_key _ _ "group") in G as (z & -> & L1 & G2); auto. tok G2 "group" L1.
    inv_bind Hb. destruct a as [[each nt5] r5]. destruct (negb (olow_is nt5 "by")) eqn:BY; [discriminate|]. apply negb_false_iff in BY.
    step Hb. inv_bind Hb. destruct a as [args rollup]. inversion Hb; subst. apply groupby_gives in Hb1. cbn [optl app] in *. subst. left.
    destruct (olow_is nt0 "each") eqn:EA.
    - step Hb0. inversion Hb0; subst. destruct (gives_key _ _ _ _ _ G2 EA) as (z' & -> & L2 & G3). tok G3 "each" L2.
      destruct (gives_key _ _ _ _ _ G3 BY) as (z2 & -> & L3 & G4). tok G4 "by" L3. eapply gives_inner in G4; [|exact Hb1]. fin G4.
    - inversion Hb0; subst. destruct (gives_key _ _ _ _ _ G2 BY) as (z2 & -> & L3 & G4). tok G4 "by" L3. eapply gives_inner in G4; [|exact Hb1]. fin G4. }
  clear G Hb. rename G1 into G. inv_bind H. destruct a as [[having nt4] r5].
  match type of G with after ?m _ _ _ => assert (G1 : after (m ++ match having with Some f => Key "having" :: pieces f | None => [] end) nt4 r5 i) end.
  { destruct (olow_is nt3 "having") eqn:I1; [|inversion Hb; subst; rewrite app_nil_r; exact G].
    inv_bind Hb. destruct a as [[x nt5] r6]. inversion Hb; subst. apply (after_key _ _ "having") in G as (z & -> & L1 & G2); auto. tok G2 "having" L1.
    eapply expr_gives in Hb0; [|exact G2]. fin Hb0. }
  clear G Hb. rename G1 into G. inv_bind H. destruct a as [[order nt5] r6].
  match type of G with after ?m _ _ _ => assert (G1 : after (m ++ match order with Some l => Key "order" :: Key "by" :: flat_map pieces l | None => [] end) nt5 r6 i) end.
  { destruct (olow_is nt4 "order") eqn:I1; [|inversion Hb; subst; rewrite app_nil_r; exact G].
    step Hb. destruct (negb (olow_is nt0 "by")) eqn:BY; [discriminate|]. apply negb_false_iff in BY. step Hb. inv_bind Hb. inversion Hb; subst.
    apply (after_key _ _ "order") in G as (z & -> & L1 & G2); auto. tok G2 "order" L1.
    destruct (gives_key _ _ _ _ _ G2 BY) as (z2 & -> & L3 & G4). tok G4 "by" L3. cbn [optl app] in *. subst. apply orderby_gives in Hb0.
    eapply gives_inner in G4; [|exact Hb0]. left. fin G4. }
  clear G Hb. rename G1 into G. inv_bind H. destruct a as [[limit nt6] r7].
  match type of G with after ?m _ _ _ => assert (G1 : after (m ++ match limit with
       | Some (true, _) => [Key "limit"; Key "all"]
       | Some (false, Some e) => Key "limit" :: pieces e
       | Some (false, None) => [Key "limit"; Text "None"]
       | None => [] end) nt6 r7 i) end.
  { destruct (olow_is nt5 "limit") eqn:I1; [|inversion Hb; subst; rewrite app_nil_r; exact G].
    step Hb. inv_bind Hb. destruct a as [la le]. inversion Hb; subst. apply (after_key _ _ "limit") in G as (z & -> & L1 & G2); auto. tok G2 "limit" L1.
    cbn [optl app] in *. subst. apply limit_gives in Hb0. eapply gives_inner in G2; [|exact Hb0]. left. destruct la; [|destruct le]; fin G2. }
  clear G Hb. rename G1 into G. inv_bind H. destruct a as [[offset nt7] r8].
  match type of G with after ?m _ _ _ => assert (G1 : after (m ++ match offset with Some f => Key "offset" :: pieces f | None => [] end) nt7 r8 i) end.
  { destruct (olow_is nt6 "offset") eqn:I1; [|inversion Hb; subst; rewrite app_nil_r; exact G].
    step Hb. inv_bind Hb. destruct a as [[x nt8] r9]. inversion Hb; subst. apply (after_key _ _ "offset") in G as (z & -> & L1 & G2); auto. tok G2 "offset" L1.
    cbn [optl app] in *. subst. apply expr_inner in Hb0; auto. eapply gives_inner in G2; [|exact Hb0]. left. fin G2. }
  clear G Hb. rename G1 into G. inversion H; subst. cbn [pieces].
  match type of G with after ?m _ _ _ => assert (G1 : gives (m ++ (if opt_eqb nt7 ";" then [Text ";"] else [])) r8 i) end.
  { destruct (opt_eqb nt7 ";") eqn:S1.
    - apply (after_sym _ _ ";") in G; auto. apply (gives_tok1 _ (Text ";")) in G; [|constructor]. exact G.
    - rewrite app_nil_r. apply after_drop in G. exact G. }
  apply gives_end in G1. fin G1.
Qed.

Lemma with_loop_gives : forall k eos ts qs r l i, with_loop P k eos ts = Ok (qs, r) -> gives l ts i ->
  exists t, lower t = "select" /\ gives (l ++ flat_map (fun q => Text (fst q) :: Key "as" :: pieces (snd q)) qs) (t :: r) i.
Proof.
  induction k; intros eos ts qs r l i H G; cbn [with_loop] in H; [discriminate|].
  step H. step H. step H. step H. step H. step H. inv_bind H. step H. subst. cbn [optl app] in *. subst.
  apply (gives_tok1 _ (Text t)) in G; [|constructor]. tok G "as" A. apply gives_drop1 in G. apply gives_drop in G.
  destruct HP as (_ & _ & _ & HS & _). apply HS in Hb. eapply gives_inner in G; [|exact Hb]. apply gives_drop in G.
  destruct (str_eqb (lower t2) "select") eqn:S1.
  - inversion H; subst. exists t2. split; [apply str_eqb_eq; auto|]. cbn [flat_map fst snd]. rewrite app_nil_r. fin G.
  - inv_bind H. destruct a0 as [qs' r']. inversion H; subst. apply gives_drop1 in G. eapply IHk in Hb0; [|exact G].
    destruct Hb0 as (t' & L & G2). exists t'. split; auto. cbn [flat_map fst snd]. fin G2.
Qed.
Lemma stmt_gives : forall eos ts n, stmt_body P eos ts = Ok n -> gives (pieces n) [] ts.
Proof.
  intros eos ts n H. unfold stmt_body in H. step H. subst ts. destruct HP as (_ & HS & _).
  destruct (str_eqb (lower t) "select") eqn:S1; [eapply HS; eauto; apply str_eqb_eq; auto|].
  destruct (str_eqb (lower t) "with") eqn:W; [|discriminate].
  unfold with_parse in H. inv_bind H. destruct a as [qs r]. inv_bind H. inversion H; subst.
  assert (G : gives [] (t :: ts0) (t :: ts0)) by constructor. tok G "with" W. eapply with_loop_gives in Hb; [|exact G].
  destruct Hb as (t' & L & G2). eapply HS in Hb0; [|exact L]. pose proof (gives_trans _ _ _ G2 _ _ Hb0) as G3. cbn [pieces]. fin G3.
Qed.

Lemma from_alias_gives : forall e t ts e' nt r l i, from_alias e t ts = Ok (e', nt, r) -> gives (l ++ pieces e) (t :: ts) i ->
  gives (l ++ pieces e') (optl nt ++ r) i.
Proof.
  intros e t ts e' nt r l i H G. unfold from_alias in H. inv_bind H. destruct a as [[was al] r1]. inv_bind H. destruct a as [al2 r2].
  step H. inversion H; subst.
  assert (G1 : gives ((l ++ pieces e) ++ if was then [Key "as"] else []) (al :: r1) i).
  { destruct (str_eqb (lower t) "as") eqn:A.
    - step Hb. inversion Hb; subst. tok G "as" A. exact G.
    - inversion Hb; subst. rewrite app_nil_r. exact G. }
  destruct (mem al QUOTES) eqn:Q.
  - inv_bind Hb0. destruct a as [x r3]. inversion Hb0; subst. apply gives_drop1 in G1. eapply string_gives0 in Hb1; [|assumption|exact G1]. cbn [pieces]. fin Hb1.
  - inversion Hb0; subst. apply (gives_tok1 _ (Text al)) in G1; [|constructor]. cbn [pieces]. fin G1.
Qed.
Lemma from_alias_quote : forall e t ts e' nt r i, from_alias e t ts = Ok (e', nt, r) -> mem t QUOTES = true -> gives (pieces e) ts i ->
  gives (pieces e') (optl nt ++ r) i.
Proof.
  intros e t ts e' nt r i H Q G. unfold from_alias in H.
  assert (A : str_eqb (lower t) "as" = false) by (apply mem_In in Q; destruct Q as [<-|[<-|[<-|[]]]]; reflexivity).
  rewrite A in H. cbn [rbind] in H. rewrite Q in H. inv_bind H. destruct a as [al r1]. inv_bind Hb. destruct a as [x r2]. inversion Hb; subst.
  step H. inversion H; subst. eapply string_gives0 in Hb0; [|assumption|exact G]. cbn [pieces]. fin Hb0.
Qed.
Lemma unnest_gives : forall ts e nt r t0 i, unnest_parse P ts = Ok (e, nt, r) -> lower t0 = "unnest" -> gives [] (t0 :: ts) i ->
  gives (pieces e) (optl nt ++ r) i.
Proof.
  intros ts e nt r t0 i H T G. unfold unnest_parse in H. tok G "unnest" T. step H. step H. step H. inv_bind H. step H. subst. cbn [optl app] in *. subst.
  apply exprlist_gives in Hb. apply gives_drop1 in G. apply gives_drop in G. eapply gives_inner in G; [|exact Hb]. apply gives_drop in G.
  cbn [app] in G. change (gives ([] ++ pieces (NFun "unnest" a)) (optl nt0 ++ ts2) i) in G. clear Hb.
  inv_bind H. destruct a0 as [[e1 nt1] r1].
  assert (G1 : gives (pieces e1) (optl nt1 ++ r1) i).
  { destruct nt0 as [t2|]; [|inversion Hb; subst; exact G].
    match type of Hb with (if ?x then _ else _) = _ => destruct x; [|inversion Hb; subst; exact G] end.
    eapply (from_alias_gives _ _ _ _ _ _ []) in Hb; eauto. }
  clear G Hb. destruct (olow_is nt1 "with") eqn:W.
  - step H. step H. step H. destruct (gives_key _ _ _ _ _ G1 W) as (z & -> & L & G2). subst. tok G2 "with" L. tok G2 "offset" A0.
    destruct nt2 as [t2|].
    + match type of H with (if ?x then _ else _) = _ => destruct x end.
      * inv_bind H. destruct a0 as [[was al] r2]. step H. inversion H; subst. cbn [optl app] in *.
        destruct (str_eqb (lower t2) "as") eqn:AS.
        -- step Hb. inversion Hb; subst. tok G2 "as" AS. apply (gives_tok1 _ (Text al)) in G2; [|constructor]. cbn [pieces]. fin G2.
        -- inversion Hb; subst. apply (gives_tok1 _ (Text al)) in G2; [|constructor]. cbn [pieces]. fin G2.
      * inversion H; subst. cbn [pieces]. fin G2.
    + inversion H; subst. cbn [pieces]. fin G2.
  - inversion H; subst. cbn [pieces]. fin G1.
Qed.
Lemma table_dot_gives : forall k e nt ts e' nt' r i, table_dot_loop P k e nt ts = Ok (e', nt', r) -> after (pieces e) nt ts i ->
  after (pieces e') nt' r i.
Proof.
  induction k; intros e nt ts e' nt' r i H G; cbn [table_dot_loop] in H; (destruct (opt_eqb nt ".") eqn:D; [|inversion H; subst; auto]).
  - discriminate.
  - inv_bind H. destruct a as [[x nt1] r1]. eapply IHk; [exact H|]. apply (after_sym _ _ ".") in G; auto.
    apply (gives_tok1 _ (Text ".")) in G; [|constructor]. eapply expr_gives in Hb; [|exact G]. cbn [pieces]. fin Hb.
Qed.

Lemma from_item_gives : forall ts e nt r, from_item P ts = Ok (e, nt, r) -> after (pieces e) nt r ts.
Proof.
  intros ts e nt r H. unfold from_item in H. step H. subst ts. set (i := t :: ts0). assert (G : gives [] (t :: ts0) i) by constructor. clearbody i.
  destruct HP as (_ & _ & HF & HS & _).
  destruct (str_eqb t "(").
  { step H. inv_bind H. step H. inversion H; subst. cbn [optl app] in *. subst.
    assert (K : gives (pieces a) [] at_).
    { destruct (p_stmt P None at_) as [n|x] eqn:PS; [inversion Hb; subst; eauto|]. destruct x; try discriminate. eauto. }
    apply gives_drop1 in G. apply gives_drop in G. eapply gives_inner in G; [|exact K]. apply gives_drop in G. left. cbn [pieces flat_map]. fin G. }
  destruct (mem t QUOTES) eqn:Q.
  { inv_bind H. destruct a as [x r1]. step H. inv_bind H. destruct a as [[y nt1] r2]. inversion H; subst.
    apply gives_drop1 in G. eapply string_gives0 in Hb; [|assumption|exact G]. eapply table_dot_gives in Hb0; [|left; exact Hb]. exact Hb0. }
  destruct (str_eqb t "[").
  { step H. inv_bind H. destruct a as [[x ?] ?]. step H. step H. inversion H; subst. cbn [optl app] in *. subst.
    apply expr_inner in Hb; auto. apply gives_drop1 in G. eapply gives_inner in G; [|exact Hb]. apply gives_drop in G. left. cbn [pieces]. fin G. }
  destruct (str_eqb (lower t) "unnest") eqn:U.
  { apply str_eqb_eq in U. left. eapply unnest_gives; eauto. }
  step H. inv_bind H. destruct a as [[x ?] ?]. inversion H; subst. cbn [optl app] in *. rewrite E in G. apply expr_inner in Hb; auto.
  eapply gives_inner in G; [|exact Hb]. left. cbn [pieces]. fin G.
Qed.

Lemma upper_join : forall a, written (Key (upper (join " " a))) a.
Proof. intros a. constructor. rewrite lower_upper. auto. Qed.
Lemma set_gives : forall k e nt ts e' nt' r i, set_loop P k e nt ts = Ok (e', nt', r) -> after (pieces e) nt ts i ->
  after (pieces e') nt' r i.
Proof.
  induction k; intros e nt ts e' nt' r i H G; cbn [set_loop] in H; (destruct (olow_in nt SET_OPERATORS) eqn:D; [|inversion H; subst; auto]).
  - discriminate.
  - destruct nt as [t|]; [|discriminate]. apply after_tok in G; [|eapply keyword_no_quote; [exact D|reflexivity]].
    step H. cbn [optl app] in E. rewrite E in G. clear E.
    pose proof (gives_tok _ _ _ _ _ G (upper_join et)) as G1. clear G.
    step H. rewrite E in G1. clear E. inv_bind H.
    assert (K : gives (pieces a) [] et0).
    { destruct HP as (_ & HS & HF & _). destruct et0 as [|t0 r0]; [discriminate|]. destruct (str_eqb (lower t0) "select") eqn:S1; [|eauto].
      eapply HS; eauto. apply str_eqb_eq. auto. }
    eapply gives_inner in G1; [|exact K]. clear K Hb.
    inv_bind H. destruct a0 as [[e1 nt2] r2]. eapply IHk; [exact H|].
    assert (G2 : gives ([] ++ pieces (NCombined (upper (join " " et)) e a)) (optl nt0 ++ ts1) i) by (cbn [pieces]; fin G1).
    destruct nt0 as [t1|]; [|inversion Hb; subst; left; exact G2].
    destruct (negb (mem (lower t1) SET_OPERATORS)); [|inversion Hb; subst; left; exact G2].
    eapply from_alias_gives in Hb; [|exact G2]. left. exact Hb.
Qed.
Lemma join_gives : forall k e nt ts e' nt' r i, join_loop P k e nt ts = Ok (e', nt', r) -> after (pieces e) nt ts i ->
  after (pieces e') nt' r i.
Proof.
  induction k; intros e nt ts e' nt' r i H G; cbn [join_loop] in H; (destruct (olow_in nt JOIN_VALUES) eqn:D; [|inversion H; subst; auto]).
  - discriminate.
  - destruct nt as [t|]; [|discriminate]. apply after_tok in G; [|eapply keyword_no_quote; [exact D|reflexivity]].
    step H. cbn [optl app] in E. rewrite E in G. clear E.
    pose proof (gives_tok _ _ _ _ _ G (upper_join et)) as G1. clear G.
    inv_bind H. destruct a as [[et1 nt1] r1].
    assert (G2 : gives (pieces e ++ [Key (upper (join " " et))]) (et1 ++ optl nt1 ++ r1) i).
    { destruct (mem (upper (join " " et)) ["CROSS JOIN"; ","]).
      - inversion Hb; subst. cbn [optl app]. rewrite app_nil_r. destruct nt; exact G1.
      - apply until_one_of_gives in Hb. rewrite Hb in G1. exact G1. }
    clear G1 Hb. inv_bind H. destruct HP as (_ & _ & HF & _). apply HF in Hb. eapply gives_inner in G2; [|exact Hb]. clear Hb.
    step H. cbn [optl app] in E. subst r1. inv_bind H. destruct a0 as [on_ using_].
    assert (G3 : gives ((pieces e ++ [Key (upper (join " " et))]) ++ pieces a ++ match on_ with Some c => Key "on" :: pieces c | None => [] end
      ++ match using_ with Some c => Key "using" :: pieces c | None => [] end) (optl nt0 ++ ts1) i).
    { destruct (olow_is nt1 "on") eqn:O; [|destruct (olow_is nt1 "using") eqn:U].
      - inv_bind Hb. destruct a0 as [[c ?] ?]. inversion Hb; subst. apply expr_inner in Hb0; auto.
        destruct (gives_key _ _ _ _ _ G2 O) as (z & -> & L & G3). tok G3 "on" L. eapply gives_inner in G3; [|exact Hb0]. fin G3.
      - inv_bind Hb. destruct a0 as [[c ?] ?]. inversion Hb; subst. apply expr_inner in Hb0; auto.
        destruct (gives_key _ _ _ _ _ G2 U) as (z & -> & L & G3). tok G3 "using" L. eapply gives_inner in G3; [|exact Hb0]. fin G3.
      - inversion Hb; subst. apply gives_drop in G2. apply gives_drop in G2. fin G2. }
    clear G2 Hb. inv_bind H. destruct a0 as [[e1 nt3] r2]. eapply IHk; [exact H|].
    assert (G2 : gives ([] ++ pieces (NJoin (upper (join " " et)) e a on_ using_)) (optl nt0 ++ ts1) i) by (cbn [pieces]; fin G3).
    destruct nt0 as [t1|]; [|inversion Hb; subst; left; exact G2].
    destruct (negb (mem (lower t1) JOIN_VALUES)); [|inversion Hb; subst; left; exact G2].
    eapply from_alias_gives in Hb; [|exact G2]. left. exact Hb.
Qed.
Lemma from_gives : forall ts n, from_body P ts = Ok n -> gives (pieces n) [] ts.
Proof.
  intros ts n H. unfold from_body in H. inv_bind H. destruct a as [[e nt] r]. apply from_item_gives in Hb.
  inv_bind H. destruct a as [[e1 nt1] r1].
  assert (G : after (pieces e1) nt1 r1 ts).
  { destruct nt as [t|]; [|inversion Hb0; subst; auto].
    match type of Hb0 with (if ?x then _ else _) = _ => destruct x; [|inversion Hb0; subst; auto] end.
    destruct Hb as [G|[(q & E & Q) G]].
    - left. eapply (from_alias_gives _ _ _ _ _ _ []) in Hb0; eauto.
    - left. inversion E; subst q. eapply from_alias_quote; eauto. }
  clear Hb Hb0. inv_bind H. destruct a as [[e2 nt2] r2]. eapply set_gives in Hb; [|exact G].
  inv_bind H. destruct a as [[e3 nt3] r3]. eapply join_gives in Hb0; [|exact Hb]. inversion H; subst.
  apply after_drop in Hb0. eapply gives_end; eauto.
Qed.
End Body.

Lemma honest_parsers : forall n, honest (parsers n).
Proof.
  induction n; cbn [parsers].
  - repeat split; cbn; intros; discriminate.
  - repeat split; cbn [p_expr p_select p_from p_stmt]; intros.
    + eapply body_gives; eauto.
    + eapply select_gives; eauto.
    + eapply from_gives; eauto.
    + eapply stmt_gives; eauto.
    + unfold expr_body. rewrite H. cbn. discriminate.
Qed.
Lemma parse_taken : forall eos ts n, parse_stmt eos ts = Ok n -> taken (pieces n) ts.
Proof.
  intros eos ts n H. unfold parse_stmt in H. eapply gives_taken. destruct (honest_parsers (parse_fuel ts)) as (_ & _ & _ & K & _). eapply K; eauto.
Qed.
