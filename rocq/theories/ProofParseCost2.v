(** How much the parsers spend: every token pays for a bounded number of calls, and only a FROM parenthesis
    whose content is parsed twice costs more. *)
From Verif Require Import PyStr PyFloat Lib Tokeniser Ast Parser ParseCost.
Local Open Scope str_scope.
Local Open Scope list_scope.
Local Open Scope Z_scope.

Section Budget.
(** [credit]: what one token parsed again pays back; [M]: what one token pays; [inner], [W']: what the content of a
    parenthesis may cost in FROM. *)
Variables (credit M : Z) (good inner : list str -> Prop) (W' : list str -> Z).
Hypothesis M5 : 5 <= M.
Hypothesis good_app : forall a b, good (a ++ b) -> good a /\ good b.
Hypothesis good_inner : forall ts at_ r, good ("(" :: ts) -> until_close None None ts = Ok (at_, r) -> inner at_.
Definition W (l : list str) : Z := M * Z.of_nat (length l).
Definition V (o : option str) : Z := match o with Some _ => M | None => 0 end.
Hypothesis W_once : forall l, W' l <= W l.
Hypothesis W_twice : forall l, 5 + 2 * W' l <= M + W l + credit * Z.of_nat (length l).

Lemma W_nil : W [] = 0.
Proof. unfold W. cbn. lia. Qed.
Lemma W_cons : forall t r, W (t :: r) = M + W r.
Proof. intros. unfold W. cbn [length]. lia. Qed.
Lemma W_app : forall a b, W (a ++ b) = W a + W b.
Proof. intros. unfold W. rewrite app_length. lia. Qed.
Lemma W_pos : forall l, 0 <= W l.
Proof. intros. unfold W. nia. Qed.
Lemma V_pos : forall o, 0 <= V o <= M.
Proof. intros [?|]; cbn; lia. Qed.
Lemma good_tl : forall t r, good (t :: r) -> good r.
Proof. intros t r G. apply (good_app [t] r G). Qed.
Lemma good_l : forall a b, good (a ++ b) -> good a.
Proof. intros a b G. apply (good_app a b G). Qed.
Lemma good_r : forall a b, good (a ++ b) -> good b.
Proof. intros a b G. apply (good_app a b G). Qed.
Definition ol (o : option str) : list str := match o with Some t => [t] | None => [] end.
Lemma W_ol : forall o, W (ol o) = V o.
Proof. intros [?|]; unfold W; cbn; lia. Qed.

Definition cst {A} (c : counted A) : Z := Z.of_nat (fst (snd c)) - credit * Z.of_nat (snd (snd c)).
Definition bud {A} (B : Z) (F : Z -> A -> Prop) (c : counted A) : Prop :=
  match fst c with Ok x => F (B - cst c) x | Err _ => cst c <= B end.
Lemma bud_bind : forall {A B'} B (F : Z -> A -> Prop) (G : Z -> B' -> Prop) a f,
  bud B F a -> (forall b x, F b x -> bud b G (f x)) -> bud B G (cbind a f).
Proof.
  intros A B' B F G [[x|e] [k q]] f H K; cbn [cbind]; [|exact H].
  unfold bud in H. cbn [fst] in H. specialize (K _ _ H). unfold bud, cst in *.
  destruct (f x) as [[y|e] [k' q']]; cbn [fst snd] in *; [|lia].
  match type of K with G ?a _ => match goal with |- G ?b _ => replace b with a by lia end end. exact K.
Qed.
Lemma bud_free : forall {A} B (F : Z -> A -> Prop) (r : R A),
  0 <= B -> (forall x, r = Ok x -> F B x) -> bud B F (free r).
Proof. intros A B F [x|e] H K; unfold bud, cst; cbn; [|lia]. replace (B - _) with B by lia. auto. Qed.
Lemma bud_ok : forall {A} B (F : Z -> A -> Prop) (x : A), F B x -> bud B F (free (Ok x)).
Proof. intros A B F x K; unfold bud, cst; cbn. replace (B - _) with B by lia. auto. Qed.
Lemma bud_err : forall {A} B (F : Z -> A -> Prop) e, 0 <= B -> bud B F (free (Err e)).
Proof. intros A B F e K; unfold bud, cst; cbn. lia. Qed.
Lemma bud_tick : forall {A} B (F : Z -> A -> Prop) c, bud (B - 1) F c -> bud B F (tick c).
Proof.
  intros A B F [[x|e] [k q]] K; unfold bud, cst in *; cbn [fst snd tick] in *; [|lia].
  match type of K with F ?a _ => match goal with |- F ?b _ => replace b with a by lia end end. exact K.
Qed.
Lemma bud_weak : forall {A} B (F G : Z -> A -> Prop) c, bud B F c -> (forall b x, F b x -> G b x) -> bud B G c.
Proof. intros A B F G [[x|e] [k q]] H K; unfold bud in *; cbn in *; auto. Qed.
Lemma bud_assoc : forall {A B C} b (F : Z -> C -> Prop) (a : counted A) (f : A -> counted B) (g : B -> counted C),
  bud b F (cbind a (fun x => cbind (f x) g)) -> bud b F (cbind (cbind a f) g).
Proof.
  intros A B C b F [[x|e] [k q]] f g H; cbn [cbind] in *; [|exact H].
  destruct (f x) as [[y|e] [k' q']]; cbn [cbind] in *; [|exact H].
  destruct (g y) as [z [k2 q2]]. unfold bud, cst in *; cbn [fst snd] in *.
  rewrite !Nat.add_assoc in H. exact H.
Qed.
Lemma bud_ret : forall {A B'} B (F : Z -> B' -> Prop) (x : A) f, bud B F (f x) -> bud B F (cbind (free (Ok x)) f).
Proof. intros A B' B F x f H. cbn [cbind free]. destruct (f x) as [y [k q]]. exact H. Qed.
Lemma bud_fail : forall {A B'} B (F : Z -> B' -> Prop) e (f : A -> _), 0 <= B -> bud B F (cbind (free (Err e)) f).
Proof. intros A B' B F e f H. cbn [cbind free]. apply (bud_err B F e H). Qed.

(** ** Readers *)
Lemma next_opt_bud : forall eos ts B, 0 <= B -> good ts ->
  bud B (fun b x => b = B /\ good (snd x) /\ good (ol (fst x) ++ snd x) /\ W (snd x) + V (fst x) = W ts) (free (next_opt eos ts)).
Proof.
  intros eos ts B HB G. apply bud_free; auto. intros [nt r] E. destruct ts as [|t ts]; cbn in E.
  - destruct eos; inversion E; subst. cbn [fst snd ol app V]. repeat split; auto. lia.
  - inversion E; subst. cbn [fst snd ol app V]. rewrite W_cons. repeat split; auto; [eapply good_tl; eauto|lia].
Qed.
Lemma next_req_bud : forall eos ts B, 0 <= B -> good ts ->
  bud B (fun b x => b = B /\ good (snd x) /\ good (fst x :: snd x) /\ W (snd x) + M = W ts) (free (next_req eos ts)).
Proof.
  intros eos ts B HB G. apply bud_free; auto. intros [t' r] E. destruct ts as [|t ts]; cbn in E.
  - destruct eos; inversion E.
  - inversion E; subst. cbn [fst snd]. rewrite W_cons. repeat split; auto; [eapply good_tl; eauto|lia].
Qed.
Lemma until_close_loop_app : forall eos ts d a r, until_close_loop eos d ts = Ok (a, r) ->
  exists c, ts = a ++ c ++ r.
Proof.
  intros eos ts. induction ts as [|t ts IH]; intros d a r H; cbn [until_close_loop] in H.
  - destruct eos; inversion H; subst. exists []. auto.
  - destruct (str_eqb t ")" && _)%bool; [inversion H; subst; exists [t]; auto|].
    destruct (until_close_loop eos _ ts) as [[a' r']|] eqn:E; cbn [rbind] in H; [|discriminate]. inversion H; subst.
    apply IH in E as [c ->]. exists c. auto.
Qed.
Lemma until_close_bud : forall eos first ts B, 0 <= B -> good (ol first ++ ts) ->
  bud B (fun b x => b = B /\ good (fst x) /\ good (snd x) /\ W (fst x) + W (snd x) <= W ts + V first)
    (free (until_close eos first ts)).
Proof.
  intros eos first ts B HB G. apply bud_free; auto. intros [a r] E. unfold until_close in E.
  apply until_close_loop_app in E as [c E]. cbn [fst snd].
  assert (X : exists p, ol first ++ ts = p ++ a ++ c ++ r /\ W (a ++ c ++ r) <= W ts + V first).
  { pose proof (V_pos first). destruct first as [[|]|]; cbn [ol app] in *.
    - exists [[]]. cbn [app]. rewrite <- E. split; auto. lia.
    - exists []. cbn [app]. rewrite <- E. split; auto. rewrite W_cons. cbn [V]. lia.
    - exists []. cbn [app]. rewrite <- E. split; auto. cbn [V]. lia. }
  destruct X as (p & X & L). rewrite X in G. rewrite !W_app in L. pose proof (W_pos c).
  apply good_r in G. repeat split; auto; [eapply good_l; eauto| |lia].
  apply good_r in G. eapply good_r; eauto.
Qed.
Lemma until_loop_app : forall eos stop keep ts a b c prev l nt r, until_loop eos stop keep a b c prev ts = Ok (l, nt, r) ->
  ts = l ++ ol nt ++ r.
Proof.
  intros eos stop keep ts. induction ts as [|t ts IH]; intros a b c prev l nt r H; cbn [until_loop] in H.
  - destruct eos; inversion H; subst. auto.
  - match type of H with (if ?x then _ else _) = _ => destruct x end; [inversion H; subst; auto|].
    match type of H with (let '(_, _) := ?x in _) = _ => destruct x as [[a' b'] c'] end.
    destruct (until_loop _ _ _ _ _ _ _ ts) as [[[l' nt'] r']|] eqn:E; cbn [rbind] in H; [|discriminate]. inversion H; subst.
    apply IH in E as ->. auto.
Qed.
Lemma seg_bud : forall (l : list str) nt r ts first, ol first ++ ts = l ++ ol nt ++ r -> good (ol first ++ ts) ->
  good l /\ good r /\ good (ol nt ++ r) /\ W l + V nt + W r = W ts + V first.
Proof.
  intros l nt r ts first E G. assert (E2 := f_equal W E). rewrite !W_app, !W_ol in E2. rewrite E in G.
  repeat split; [eapply good_l; eauto| |eapply good_r; eauto|lia]. apply good_r in G. eapply good_r; eauto.
Qed.
Lemma until_one_of_bud : forall eos stop first keep ts B, 0 <= B -> good (ol first ++ ts) ->
  bud B (fun b x => let '(l, nt, r) := x in b = B /\ good l /\ good r /\ good (ol nt ++ r) /\ W l + V nt + W r = W ts + V first)
    (free (until_one_of eos stop first keep ts)).
Proof.
  intros eos stop first keep ts B HB G. apply bud_free; auto. intros [[l nt] r] E. unfold until_one_of in E.
  destruct (until_loop _ _ _ _ _ _ _ ts) as [[[l' nt'] r']|] eqn:E'; cbn [rbind] in E; [|discriminate]. inversion E; subst.
  apply until_loop_app in E'. split; auto. apply seg_bud; auto. rewrite E'. destruct first; auto.
Qed.
Lemma until_not_in_loop_app : forall eos kept ts l nt r, until_not_in_loop eos kept ts = Ok (l, nt, r) -> ts = l ++ ol nt ++ r.
Proof.
  intros eos kept ts. induction ts as [|t ts IH]; intros l nt r H; cbn [until_not_in_loop] in H.
  - destruct eos; inversion H; subst. auto.
  - destruct (mem (lower t) kept); [|inversion H; subst; auto].
    destruct (until_not_in_loop eos kept ts) as [[[l' nt'] r']|] eqn:E; cbn [rbind] in H; [|discriminate]. inversion H; subst.
    rewrite (IH _ _ _ eq_refl). auto.
Qed.
(** the token before [ts] need not be adjacent here: it only goes to the operator *)
Lemma until_not_in_bud : forall eos kept first ts B, 0 <= B -> good ts ->
  bud B (fun b x => let '(l, nt, r) := x in b = B /\ good r /\ good (ol nt ++ r) /\ V nt + W r <= W ts)
    (free (until_not_in eos kept first ts)).
Proof.
  intros eos kept first ts B HB G. apply bud_free; auto. intros [[l nt] r] E. unfold until_not_in in E.
  destruct (until_not_in_loop eos kept ts) as [[[l' nt'] r']|] eqn:E'; cbn [rbind] in E; [|discriminate]. inversion E; subst.
  apply until_not_in_loop_app in E'. assert (X : ol None ++ ts = l' ++ ol nt ++ r) by auto.
  apply seg_bud in X as (? & ? & ? & X); auto. cbn [V] in X. pose proof (W_pos l'). repeat split; auto. lia.
Qed.
Lemma any_bud : forall {A} (r : R A) B, 0 <= B -> bud B (fun b _ => b = B) (free r).
Proof. intros. apply bud_free; auto. Qed.
Lemma string_parse_bud : forall eos ts q p B, 0 <= B -> good ts ->
  bud B (fun b x => b = B /\ good (snd x) /\ W (snd x) <= W ts) (free (string_parse eos ts q p)).
Proof.
  intros eos ts q p B HB G. apply bud_free; auto. intros [n r] E. unfold string_parse in E.
  assert (X : exists c, ts = c ++ r).
  { destruct ts as [|t1 ts]; cbn in E; [destruct eos; cbn in E; discriminate|].
    destruct (str_eqb t1 q); [inversion E; exists [t1]; auto|].
    destruct ts as [|t2 ts]; cbn in E; [destruct eos; cbn in E; discriminate|].
    destruct (str_eqb q t2); inversion E. exists [t1; t2]; auto. }
  destruct X as [c ->]. rewrite W_app. pose proof (W_pos c). cbn [snd]. repeat split; [eapply good_r; eauto|lia].
Qed.
Lemma from_alias_bud : forall e t ts B, 0 <= B -> good ts ->
  bud B (fun b x => let '(_, nt, r) := x in b = B /\ good r /\ V nt + W r <= W ts) (free (from_alias e t ts)).
Proof.
  intros e t ts B HB G. apply bud_free; auto. intros [[n nt] r] E. unfold from_alias in E.
  assert (X : exists c, ts = c ++ ol nt ++ r).
  { match type of E with rbind ?x _ = _ => assert (Y : forall w a r1, x = Ok (w, a, r1) -> exists c, ts = c ++ r1) end.
    { intros w a r1 Y. destruct (str_eqb (lower t) "as"); [|inversion Y; exists []; auto].
      destruct ts; cbn in Y; inversion Y. exists [s]. subst. auto. }
    match type of E with rbind ?x _ = _ => destruct x as [[[w a] r1]|]; cbn [rbind] in E; [|discriminate] end.
    destruct (Y _ _ _ eq_refl) as [c1 ->]. clear Y.
    match type of E with rbind ?x _ = _ => assert (Y : forall a r2, x = Ok (a, r2) -> exists c, r1 = c ++ r2) end.
    { intros a' r2 Y. destruct (mem a QUOTES); [|inversion Y; exists []; auto].
      unfold string_parse in Y. destruct r1 as [|t1 ts]; cbn in Y; [discriminate|].
      destruct (str_eqb t1 a); [inversion Y; exists [t1]; auto|].
      destruct ts as [|t2 ts]; cbn in Y; [discriminate|]. destruct (str_eqb a t2); inversion Y. exists [t1; t2]; auto. }
    match type of E with rbind ?x _ = _ => destruct x as [[a' r2]|]; cbn [rbind] in E; [|discriminate] end.
    destruct (Y _ _ eq_refl) as [c2 ->]. clear Y.
    exists (c1 ++ c2). destruct r2; cbn in E; inversion E; subst; cbn; rewrite <- app_assoc; auto. }
  destruct X as [c X]. assert (E2 := f_equal W X). rewrite !W_app, W_ol in E2. pose proof (W_pos c).
  rewrite X in G. apply good_r in G. apply good_r in G. repeat split; auto. lia.
Qed.

(** ** The parsers *)
Definition fl (o : eopts) : list str := match o_first o with Some (c :: f) => [c :: f] | _ => [] end.
Definition post (B n : Z) {A} (b : Z) (x : A * option str * list str) : Prop :=
  let '(_, nt, r) := x in good r /\ B + W r + V nt <= b + n.
Record bounds (P : cparsers_t) : Prop := {
  b_expr : forall eos o ts B, good (fl o ++ ts) -> 1 + W (fl o) + W ts <= B ->
    bud B (post B (1 + W (fl o) + W ts)) (c_expr P eos o ts);
  b_select : forall eos ts B, good ts -> 2 + W ts <= B -> bud B (fun b _ => B <= b + 2 + W ts) (c_select P eos ts);
  b_from : forall ts B, good ts -> 2 + W ts <= B -> bud B (fun b _ => B <= b + 2 + W ts) (c_from P ts);
  b_stmt : forall eos ts B, good ts -> 1 + W ts <= B -> bud B (fun b _ => B <= b + 1 + W ts) (c_stmt P eos ts) }.
Record bounds' (P : cparsers_t) : Prop := {
  b_stmt' : forall ts, inner ts -> cst (c_stmt P None ts) <= 1 + W' ts;
  b_from' : forall ts, inner ts -> cst (c_from P ts) <= 2 + W' ts }.

Lemma V_low_is : forall o s, olow_is o s = true -> V o = M.
Proof. intros [u|] s H; [reflexivity|discriminate]. Qed.
Lemma V_low_in : forall o s, olow_in o s = true -> V o = M.
Proof. intros [u|] s H; [reflexivity|discriminate]. Qed.
Lemma V_eqb : forall o s, opt_eqb o s = true -> V o = M.
Proof. intros [u|] s H; [reflexivity|discriminate]. Qed.
(** [0 <= W _] and [0 <= V _ <= M] for what is in sight, then arithmetic *)
Ltac split_all := repeat match goal with H : _ /\ _ |- _ => destruct H end.
Ltac simpl_in := unfold post in *; cbn [fst snd ol app V fl o_first opts0 opts_rh opts_until] in *;
  rewrite ?W_app, ?W_cons, ?W_nil in *; cbn [fst snd ol app V] in *.
Ltac pos := repeat match goal with
  | |- context [W ?l] => lazymatch goal with H : 0 <= W l |- _ => fail | _ => pose proof (W_pos l) end
  | _ : context [W ?l] |- _ => lazymatch goal with H : 0 <= W l |- _ => fail | _ => pose proof (W_pos l) end
  | |- context [V ?o] => lazymatch goal with H : 0 <= V o <= M |- _ => fail | _ => pose proof (V_pos o) end
  | _ : context [V ?o] |- _ => lazymatch goal with H : 0 <= V o <= M |- _ => fail | _ => pose proof (V_pos o) end
  end.
Ltac some := repeat match goal with
  | H : olow_is ?o _ = true |- _ => apply V_low_is in H
  | H : olow_in ?o _ = true |- _ => apply V_low_in in H
  | H : opt_eqb ?o _ = true |- _ => apply V_eqb in H
  | H : negb (opt_eqb ?o _) = false |- _ => apply negb_false_iff in H
  | H : (truthy ?o && olow_is ?o _)%bool = true |- _ => apply andb_true_iff in H as [_ H]
  | H : (_ && olow_is ?o _)%bool = true |- _ => apply andb_true_iff in H as [_ H]
  end.
Ltac num := clear W_once W_twice; some; split_all; simpl_in; pos; lia.
Ltac gd := cbn [ol app fl o_first opts0 opts_rh opts_until]; solve [assumption | eapply good_tl; eassumption].
Ltac names := let b := fresh "b" in let x := fresh "x" in let H := fresh "H" in intros b x H;
  repeat match goal with y : (_ * _)%type |- _ => destruct y as [? ?] end;
  unfold post in H; cbn [fst snd] in H; cbv beta iota in H; split_all; cbv beta iota; subst.
Ltac leaf := first
  [ apply bud_ok; cbv beta iota; unfold post; cbn [fst snd]; repeat (match goal with |- _ /\ _ => split end); first [gd | num | exact I]
  | apply bud_err; num ].
Ltac base := first
  [ eapply next_opt_bud; [num|gd] | eapply next_req_bud; [num|gd] | eapply until_close_bud; [num|gd]
  | eapply until_one_of_bud; [num|gd] | eapply until_not_in_bud; [num|gd]
  | eapply string_parse_bud; [num|gd] | eapply from_alias_bud; [num|gd]
  | eapply b_expr; [eassumption|gd|num] | eapply b_select; [eassumption|gd|num]
  | eapply b_from; [eassumption|gd|num] | eapply b_stmt; [eassumption|gd|num]
  | eapply any_bud; num ].
Lemma exprlist_loop_bud : forall P cbt ts acc par sq ins B, bounds P -> good (acc ++ ts) -> 1 + W acc + W ts <= B ->
  bud B (fun b _ => B <= b + 1 + W acc + W ts) (c_exprlist_loop P cbt acc par sq ins ts).
Proof.
  intros P cbt ts. remember (length ts) as n eqn:LN. assert (LE : (length ts <= n)%nat) by lia. clear LN. revert ts LE.
  induction n as [|n IH]; intros ts LE acc par sq ins B S G L.
  { destruct ts; [|cbn in LE; lia]. cbn [c_exprlist_loop]. leaf. }
  destruct ts as [|t r]; [cbn [c_exprlist_loop]; leaf|]. cbn [c_exprlist_loop]. cbv zeta.
  match goal with |- bud _ _ (let '(_, _) := ?x in _) => destruct x as [[a b] c] end.
  cbn in LE. destruct r as [|m r].
  - eapply bud_bind; [base|]. names. leaf.
  - assert (G1 : good (acc ++ [t])) by (apply (good_l _ (m :: r)); rewrite <- app_assoc; exact G).
    assert (G2 : good r) by (apply (good_r (acc ++ [t; m])); rewrite <- app_assoc; exact G).
    cbn [length] in LE.
    destruct (str_eqb m "," && Z.eqb a 0 && Z.eqb b 0 && negb c)%bool.
    + eapply bud_bind; [eapply b_expr; [eassumption|exact G1|num]|]. names.
      eapply bud_bind; [apply IH; auto; [lia|num]|]. names. leaf.
    + eapply bud_weak; [apply IH; auto; [cbn [length]; lia|rewrite <- app_assoc; exact G|num]|].
      names. num.
Qed.
Lemma exprlist_bud : forall P cbt ts B, bounds P -> good ts -> 1 + W ts <= B ->
  bud B (fun b _ => B <= b + 1 + W ts) (c_exprlist P cbt ts).
Proof.
  intros P cbt ts B S G L. unfold c_exprlist. eapply bud_weak; [apply exprlist_loop_bud; auto; num|]. names. num.
Qed.
Lemma orderby_item_bud : forall P ts B, bounds P -> good ts -> 1 + W ts <= B ->
  bud B (fun b _ => B <= b + 1 + W ts) (c_orderby_item P ts).
Proof.
  intros P ts B S G L. unfold c_orderby_item. eapply bud_bind; [base|]. names. eapply bud_bind; [base|]. names. leaf.
Qed.
Lemma orderby_loop_bud : forall P n ts B, bounds P -> good ts -> 1 + W ts <= B ->
  bud B (fun b _ => B <= b + 1 + W ts) (c_orderby_loop P n ts).
Proof.
  intros P n. induction n as [|n IH]; intros ts B S G L; cbn [c_orderby_loop]; [leaf|].
  eapply bud_bind; [base|]. names. eapply bud_bind; [eapply orderby_item_bud; [eassumption|gd|num]|]. names.
  match goal with |- context [truthy ?o] => destruct o as [[|c t]|] end; cbn [truthy]; try leaf.
  eapply bud_bind; [apply IH; auto; num|]. names. leaf.
Qed.
Lemma orderby_bud : forall P ts B, bounds P -> good ts -> 1 + W ts <= B ->
  bud B (fun b _ => B <= b + 1 + W ts) (c_orderby P ts).
Proof. intros. apply orderby_loop_bud; auto. Qed.
Ltac base2 := first [ base | eapply exprlist_bud; [eassumption|gd|num] | eapply orderby_bud; [eassumption|gd|num] ].
Ltac stp0 bs := first
  [ leaf
  | match goal with |- bud _ _ (cbind (cbind _ _) _) => apply bud_assoc end
  | match goal with |- bud _ _ (cbind (free (Ok _)) _) => apply bud_ret; cbv beta iota end
  | match goal with |- bud _ _ (cbind (free (Err _)) _) => apply bud_fail; num end
  | match goal with |- bud _ _ (cbind (if ?b then _ else _) _) => destruct b eqn:? end
  | match goal with |- bud _ _ (cbind (match ?b with _ => _ end) _) => destruct b eqn:? end
  | eapply bud_bind; [bs | names]
  | match goal with |- bud _ _ (if ?b then _ else _) => destruct b eqn:? end
  | match goal with |- bud _ _ (match ?b with _ => _ end) => destruct b eqn:? end ].
Ltac stp := stp0 base2.
Lemma groupby_bud : forall P ts B, bounds P -> good ts -> 1 + W ts <= B ->
  bud B (fun b _ => B <= b + 1 + W ts) (c_groupby P ts).
Proof.
  intros P ts B S G L. unfold c_groupby. eapply bud_bind; [base|]. names. cbv zeta.
  destruct (str_eqb _ _); repeat stp.
Qed.
Lemma limit_bud : forall P ts B, bounds P -> good ts -> 1 + W ts <= B ->
  bud B (fun b _ => B <= b + 1 + W ts) (c_limit_clause P ts).
Proof. intros P ts B S G L. unfold c_limit_clause. repeat stp. Qed.
Lemma case_loop_bud : forall P n nt ts whens els B, bounds P -> good ts -> W ts + V nt <= B ->
  bud B (fun b _ => B <= b + W ts + V nt) (c_case_loop P n nt ts whens els).
Proof.
  intros P n. induction n as [|n IH]; intros nt ts whens els B S G L; cbn [c_case_loop]; [leaf|].
  destruct nt as [[|c t]|]; cbn [truthy]; try leaf.
  match goal with |- bud _ _ (if ?b then _ else _) => destruct b end.
  - eapply bud_bind; [base|]. names. eapply bud_bind; [base|]. names.
    eapply bud_bind; [base|]. names. eapply bud_bind; [base|]. names.
    eapply bud_weak; [apply IH; auto; num|]. names. num.
  - match goal with |- bud _ _ (if ?b then _ else _) => destruct b end.
    + eapply bud_bind; [base|]. names. eapply bud_bind; [base|]. names.
      eapply bud_weak; [apply IH; auto; num|]. names. num.
    + eapply bud_weak; [apply IH; auto; num|]. names. num.
Qed.
Lemma case_parse_bud : forall P ts B, bounds P -> good ts -> 1 + W ts <= B ->
  bud B (fun b _ => B <= b + 1 + W ts) (c_case_parse P ts).
Proof.
  intros P ts B S G L. unfold c_case_parse. eapply bud_bind; [base|]. names.
  match goal with |- bud _ _ (if ?b then _ else _) => destruct b eqn:EW end.
  - eapply bud_bind; [eapply case_loop_bud; [eassumption|gd|num]|]. names. leaf.
  - eapply bud_bind; [base|]. names. eapply bud_bind; [base|]. names.
    eapply bud_bind; [eapply case_loop_bud; [eassumption|gd|num]|]. names. leaf.
Qed.
Ltac base3 := first [ base2 | eapply case_parse_bud; [eassumption|gd|num] | eapply groupby_bud; [eassumption|gd|num]
  | eapply limit_bud; [eassumption|gd|num] ].
Ltac stp3 := stp0 base3.

Lemma expr_first_bud : forall P eos o main ts B, bounds P -> good ts -> M + W ts <= B ->
  bud B (fun b x => let '(eo, nt, r) := x in
           good r /\ B + W r + V nt + (match eo with None => M | Some _ => 0 end) <= b + M + W ts)
    (c_expr_first P eos o main ts).
Proof. intros P eos o main ts B S G L. unfold c_expr_first. repeat stp3. Qed.
Definition tpost (B n : Z) {A} (b : Z) (x : A * list str) : Prop := good (snd x) /\ B + W (snd x) <= b + n.
Lemma cast_bud : forall P eos o ts B, bounds P -> good ts -> M + W ts <= B ->
  bud B (tpost B (M + W ts)) (c_cast_call P eos o ts).
Proof. intros P eos o ts B S G L. unfold c_cast_call, tpost. repeat stp3. Qed.
Lemma array_agg_bud : forall P eos o ts B, bounds P -> good ts -> M + W ts <= B ->
  bud B (tpost B (M + W ts)) (c_array_agg_call P eos o ts).
Proof.
  intros P eos o ts B S G L. unfold c_array_agg_call, tpost.
  eapply bud_bind; [base|]. names. cbv zeta. destruct (str_eqb _ _); repeat stp3.
Qed.
Lemma count_bud : forall P eos ts B, bounds P -> good ts -> M + W ts <= B ->
  bud B (tpost B (M + W ts)) (c_count_call P eos ts).
Proof.
  intros P eos ts B S G L. unfold c_count_call, tpost.
  eapply bud_bind; [base|]. names. cbv zeta. destruct (str_eqb _ _); repeat stp3.
Qed.
Lemma other_bud : forall P eos o main ts B, bounds P -> good ts -> M + W ts <= B ->
  bud B (tpost B (M + W ts)) (c_other_call P eos o main ts).
Proof. intros P eos o main ts B S G L. unfold c_other_call, tpost. repeat stp3. Qed.
Lemma call_bud : forall P eos o main ts B, bounds P -> good ts -> M + W ts <= B ->
  bud B (post B (M + W ts)) (c_call P eos o main ts).
Proof.
  intros P eos o main ts B S G L. unfold c_call.
  eapply (bud_bind _ (tpost B (M + W ts))).
  - repeat match goal with |- bud _ _ (if ?b then _ else _) => destruct b end;
      [eapply cast_bud|eapply array_agg_bud|eapply count_bud|eapply other_bud]; eauto.
  - intros b [e r] H. unfold tpost in H. cbn [fst snd] in H. destruct H. repeat stp3.
Qed.
Lemma second_bud : forall P eos o main nt ts B, bounds P -> good ts -> M + W ts + V nt <= B ->
  bud B (post B (M + W ts + V nt)) (c_expr_second P eos o main nt ts).
Proof.
  intros P eos o main nt ts B S G L. unfold c_expr_second.
  destruct (opt_eqb nt "(").
  { eapply bud_weak; [eapply call_bud; eauto; num|]. names. unfold post. split; [gd|num]. }
  repeat stp3.
Qed.
Lemma over_bud : forall P eos e nt ts B, bounds P -> good ts -> W ts + V nt <= B ->
  bud B (post B (W ts + V nt)) (c_over_clause P eos e nt ts).
Proof. intros P eos e nt ts B S G L. unfold c_over_clause. repeat stp3. Qed.
Lemma dot_bud : forall P eos u n e nt ts B, bounds P -> good ts -> W ts + V nt <= B ->
  bud B (post B (W ts + V nt)) (c_dot_loop P n eos u e nt ts).
Proof.
  intros P eos u n. induction n as [|n IH]; intros e nt ts B S G L; cbn [c_dot_loop];
    destruct (opt_eqb nt ".") eqn:D; try leaf.
  destruct nt; [|discriminate]. eapply bud_bind; [base|]. names.
  eapply bud_weak; [apply IH; auto; num|]. names. unfold post. split; [gd|num].
Qed.
Lemma index_bud : forall P eos n e nt ts B, bounds P -> good ts -> W ts + V nt <= B ->
  bud B (post B (W ts + V nt)) (c_index_loop P n eos e nt ts).
Proof.
  intros P eos n. induction n as [|n IH]; intros e nt ts B S G L; cbn [c_index_loop];
    destruct (opt_eqb nt "[") eqn:D; try leaf.
  destruct nt; [|discriminate]. eapply bud_bind; [base|]. names. eapply bud_bind; [base3|]. names. eapply bud_bind; [base|]. names.
  eapply bud_weak; [apply IH; auto; num|]. names. unfold post. split; [gd|num].
Qed.
Lemma postfix_bud : forall P eos o e nt ts B, bounds P -> good ts -> W ts + V nt <= B ->
  bud B (post B (W ts + V nt)) (c_expr_postfix P eos o e nt ts).
Proof.
  intros P eos o e nt ts B S G L. unfold c_expr_postfix.
  eapply bud_bind; [eapply dot_bud; eauto|]. intros b1 [[e1 nt1] r1] H1. destruct H1 as [G1 H1].
  eapply (bud_bind _ (post b1 (W r1 + V nt1))); [repeat stp3|]. intros b2 [[e2 nt2] r2] [G2 H2].
  eapply bud_weak; [eapply index_bud; eauto; num|]. names. unfold post. split; [gd|num].
Qed.
Lemma compare_bud : forall P eos o e nt ts B, bounds P -> good ts -> W ts + V nt <= B ->
  bud B (post B (W ts + V nt)) (c_expr_compare P eos o e nt ts).
Proof.
  intros P eos o e nt ts B S G L. unfold c_expr_compare. destruct nt as [sym|]; [|leaf].
  match goal with |- bud _ _ (if ?b then _ else _) => destruct b end; [|repeat stp3].
  eapply (bud_bind _ (fun b x => let '(first, _, r) := x in b = B /\ good (ol first ++ r) /\ W r + V first <= W ts)).
  { repeat stp3. }
  intros b [[first symbol] r] (-> & G1 & H1).
  assert (X : good (fl (mk_eopts true false true (o_until o) first false) ++ r)
              /\ W (fl (mk_eopts true false true (o_until o) first false)) <= V first).
  { unfold W. destruct first as [[|c f]|]; cbn [fl o_first app ol V length] in *; split; try lia; auto.
    eapply good_tl; eauto. }
  destruct X as [X1 X2]. eapply bud_bind; [eapply b_expr; [eassumption|exact X1|cbn [V] in *; lia]|].
  intros b [[r0 nt1] r1] [G2 H2]. apply bud_ok. split; [exact G2|]. cbn [V] in *. lia.
Qed.
Lemma bool_bud : forall P eos o e nt ts B, bounds P -> good ts -> W ts + V nt <= B ->
  bud B (post B (W ts + V nt)) (c_expr_bool P eos o e nt ts).
Proof. intros P eos o e nt ts B S G L. unfold c_expr_bool. repeat stp3. Qed.
Lemma except_bud : forall P eos e nt ts B, bounds P -> good ts -> W ts + V nt <= B ->
  bud B (post B (W ts + V nt)) (c_expr_except P eos e nt ts).
Proof. intros P eos e nt ts B S G L. unfold c_expr_except. repeat stp3. Qed.
Lemma replace_bud : forall P eos e nt ts B, bounds P -> good ts -> W ts + V nt <= B ->
  bud B (post B (W ts + V nt)) (c_expr_replace P eos e nt ts).
Proof. intros P eos e nt ts B S G L. unfold c_expr_replace. repeat stp3. Qed.
Lemma alias_bud : forall P eos o e nt ts B, bounds P -> good ts -> W ts + V nt <= B ->
  bud B (post B (W ts + V nt)) (c_expr_alias P eos o e nt ts).
Proof. intros P eos o e nt ts B S G L. unfold c_expr_alias. repeat stp3. Qed.
Lemma tail_bud : forall P eos o e nt ts B, bounds P -> good ts -> W ts + V nt <= B ->
  bud B (post B (W ts + V nt)) (c_expr_tail P eos o e nt ts).
Proof.
  intros P eos o e nt ts B S G L. unfold c_expr_tail.
  match goal with |- bud _ _ (if ?b then _ else _) => destruct b end; [leaf|].
  eapply bud_bind; [eapply compare_bud; eauto|]. intros b1 [[e1 n1] r1] [G1 H1].
  eapply bud_bind; [eapply bool_bud; eauto; num|]. intros b2 [[e2 n2] r2] [G2 H2].
  eapply bud_bind; [eapply except_bud; eauto; num|]. intros b3 [[e3 n3] r3] [G3 H3].
  eapply bud_bind; [eapply replace_bud; eauto; num|]. intros b4 [[e4 n4] r4] [G4 H4].
  eapply bud_weak; [eapply alias_bud; eauto; num|]. names. unfold post. split; [gd|num].
Qed.
Lemma head_bud : forall P eos o main ts B, bounds P -> good ts -> M + W ts <= B ->
  bud B (post B (M + W ts)) (c_expr_head P eos o main ts).
Proof.
  intros P eos o main ts B S G L. unfold c_expr_head.
  eapply bud_bind; [eapply expr_first_bud; eauto|]. intros b1 [[eo n1] r1] [G1 H1].
  eapply (bud_bind _ (fun b x => b = b1 /\ good (snd x) /\ W (snd x) + V (fst x) <= W r1 + V n1)).
  - destruct n1; cbn [is_none]; [leaf|]. eapply bud_weak; [eapply next_opt_bud; [destruct eo; num|gd]|]. intros b [? ?] H. cbn [fst snd V] in *.
    split_all. repeat split; auto. lia.
  - intros b [n2 r2] (-> & G2 & H2). cbn [fst snd] in G2, H2. destruct eo; [leaf|].
    eapply bud_weak; [eapply second_bud; eauto; num|]. names. unfold post. split; [gd|num].
Qed.
Lemma expr_body_bud : forall P eos o ts B, bounds P -> good (fl o ++ ts) -> W (fl o) + W ts <= B ->
  bud B (post B (W (fl o) + W ts)) (c_expr_body P eos o ts).
Proof.
  intros P eos o ts B S G L. unfold c_expr_body.
  eapply (bud_bind _ (fun b x => b = B /\ good (snd x) /\ M + W (snd x) <= W (fl o) + W ts)).
  - unfold fl in *. destruct (o_first o) as [[|c f]|].
    + eapply bud_weak; [base|]. intros b [? ?] H. cbn [fst snd] in *. split_all. repeat split; auto; num.
    + apply bud_ok. cbn [fst snd]. split; auto. split; [gd|num].
    + eapply bud_weak; [base|]. intros b [? ?] H. cbn [fst snd] in *. split_all. repeat split; auto; num.
  - intros b [main r] (-> & G1 & H1). cbn [fst snd] in G1, H1.
    eapply bud_bind; [eapply head_bud; eauto; num|]. intros b2 [[e2 n2] r2] [G2 H2].
    eapply bud_bind; [eapply over_bud; eauto; num|]. intros b3 [[e3 n3] r3] [G3 H3].
    eapply bud_bind; [eapply postfix_bud; eauto; num|]. intros b4 [[e4 n4] r4] [G4 H4].
    eapply bud_weak; [eapply tail_bud; eauto; num|]. names. unfold post. split; [gd|num].
Qed.

(** ** Statements *)
Lemma select_body_bud : forall P eos ts B, bounds P -> good ts -> 1 + W ts <= B ->
  bud B (fun b _ => B <= b + 1 + W ts) (c_select_body P eos ts).
Proof.
  intros P eos ts B S G L. unfold c_select_body.
  eapply bud_bind; [base|]. intros b0 [t0 r0] (-> & G0 & G0' & HW). cbn [fst snd] in G0, G0', HW.
  eapply (bud_bind _ (fun b x => let '(_, _, _, first, r) := x in good (ol first ++ r) /\ B + W r + V first <= b + W ts)).
  { repeat stp3. }
  intros b1 [[[[a1 a2] a3] first] r1] [G1 H1].
  eapply bud_bind; [base|]. intros b [[et nt] r2] (-> & G2 & G2' & _ & H2).
  eapply bud_bind; [base3|]. intros b2 es H2'.
  Local Ltac stage B0 r nt := eapply (bud_bind _ (post B0 (W r + V nt))); [repeat stp3|].
  stage b2 r2 nt. intros b3 [[f n3] r3] [G3 H3].
  stage b3 r3 n3. intros b4 [[w n4] r4] [G4 H4].
  stage b4 r4 n4. intros b5 [[g n5] r5] [G5 H5].
  stage b5 r5 n5. intros b6 [[h n6] r6] [G6 H6].
  stage b6 r6 n6. intros b7 [[od n7] r7] [G7 H7].
  stage b7 r7 n7. intros b8 [[li n8] r8] [G8 H8].
  stage b8 r8 n8. intros b9 [[off n9] r9] [G9 H9].
  leaf.
Qed.
Lemma with_loop_bud : forall P eos n ts B, bounds P -> good ts -> W ts <= B ->
  bud B (tpost B (W ts)) (c_with_loop P n eos ts).
Proof.
  intros P eos n. induction n as [|n IH]; intros ts B S G L; cbn [c_with_loop]; [leaf|].
  eapply bud_bind; [base|]. names. eapply bud_bind; [base|]. names. eapply bud_bind; [base|]. names.
  eapply bud_bind; [base|]. names. eapply bud_bind; [base|]. names. eapply bud_bind; [base|]. names.
  eapply bud_bind; [base|]. names. eapply bud_bind; [base|]. names.
  unfold tpost. match goal with |- bud _ _ (if ?b then _ else _) => destruct b end; [leaf|].
  eapply bud_bind; [apply IH; auto; num|]. intros b2 [qs r6] [GG HH]. cbn [snd] in GG, HH. leaf.
Qed.
Lemma stmt_body_bud : forall P eos ts B, bounds P -> good ts -> W ts <= B ->
  bud B (fun b _ => B <= b + W ts) (c_stmt_body P eos ts).
Proof.
  intros P eos ts B S G L. unfold c_stmt_body. eapply bud_bind; [base|]. names.
  match goal with |- bud _ _ (if ?b then _ else _) => destruct b end.
  { eapply bud_weak; [base|]. names. num. }
  match goal with |- bud _ _ (if ?b then _ else _) => destruct b end; [|leaf].
  unfold c_with_parse. eapply bud_bind; [eapply with_loop_bud; eauto; num|]. intros b1 [qs r1] [GG HH]. cbn [snd] in GG, HH.
  repeat stp3.
Qed.
Lemma unnest_bud : forall P ts B, bounds P -> good ts -> M + W ts <= B ->
  bud B (post B (M + W ts)) (c_unnest_parse P ts).
Proof.
  intros P ts B S G L. unfold c_unnest_parse. repeat stp3.
Qed.
Lemma table_dot_bud : forall P n e nt ts B, bounds P -> good ts -> W ts + V nt <= B ->
  bud B (post B (W ts + V nt)) (c_table_dot_loop P n e nt ts).
Proof.
  intros P n. induction n as [|n IH]; intros e nt ts B S G L; cbn [c_table_dot_loop];
    destruct (opt_eqb nt ".") eqn:D; try leaf.
  destruct nt; [|discriminate]. eapply bud_bind; [base|]. names.
  eapply bud_weak; [apply IH; auto; num|]. names. unfold post. split; [gd|num].
Qed.
Lemma retry_bud : forall P at_ B, bounds' P -> inner at_ -> M + W at_ <= B ->
  bud B (fun b _ => B <= b + M + W at_) (retry (length at_) (c_stmt P None at_) (c_from P at_)).
Proof.
  intros P at_ B [S F] I L. specialize (S at_ I). specialize (F at_ I). assert (X1 := W_once at_). assert (X2 := W_twice at_).
  destruct (c_stmt P None at_) as [[x|e] [k q]]; unfold bud, cst in *; cbn [fst snd retry] in *; [lia|].
  destruct e; cbn [fst snd]; try lia. destruct (c_from P at_) as [[y|e] [k' q']]; cbn [fst snd] in *; lia.
Qed.
Lemma from_item_bud : forall P ts B, bounds P -> bounds' P -> good ts -> 1 + W ts <= B ->
  bud B (post B (1 + W ts)) (c_from_item P ts).
Proof.
  intros P ts B S S' G L. unfold c_from_item. eapply bud_bind; [base|]. intros b0 [t0 r0] (-> & G0 & G0' & HW). cbn [fst snd] in G0, G0', HW.
  destruct (str_eqb t0 "(") eqn:ET.
  { apply str_eqb_eq in ET. subst t0.
    eapply (bud_bind _ (fun b x => (b = B /\ good (fst x) /\ good (snd x) /\ W (fst x) + W (snd x) <= W r0) /\ inner (fst x))).
    { assert (X := until_close_bud None None r0 B). unfold bud in *. cbn [free fst ol app V] in X.
      destruct (until_close None None r0) as [[at_ r]|] eqn:E; cbn [free fst snd] in *.
      - split; [|eapply good_inner; eauto]. specialize (X ltac:(num) G0). cbn [fst snd] in X. intuition lia.
      - apply X; [num|auto]. }
    intros b [at_ r] ((-> & G1 & G2 & H1) & I). cbn [fst snd] in *.
    eapply bud_bind; [eapply retry_bud; [eassumption|eassumption|num]|]. names. repeat stp3. }
  match goal with |- bud _ _ (if ?b then _ else _) => destruct b end.
  { eapply bud_bind; [base|]. names. eapply bud_bind; [base|]. names.
    eapply bud_bind; [eapply table_dot_bud; eauto; num|]. intros b1 [[e3 n3] r3] [GG HH]. leaf. }
  match goal with |- bud _ _ (if ?b then _ else _) => destruct b end; [repeat stp3|].
  match goal with |- bud _ _ (if ?b then _ else _) => destruct b end.
  { eapply bud_weak; [eapply unnest_bud; eauto; num|]. names. unfold post. split; [gd|num]. }
  repeat stp3.
Qed.
Lemma opt_alias_bud : forall e (nt : option str) ts (c : str -> bool) B, 0 <= B -> good ts ->
  bud B (fun b x => let '(_, nt', r) := x in b = B /\ good r /\ W r + V nt' <= W ts + V nt)
    (match nt with Some t => if c t then free (from_alias e t ts) else free (Ok (e, nt, ts)) | None => free (Ok (e, nt, ts)) end).
Proof.
  intros e nt ts c B HB G. destruct nt as [t|]; [|leaf]. destruct (c t); [|leaf].
  eapply bud_weak; [apply from_alias_bud; auto|]. intros b [[x y] z] (-> & G1 & H1). repeat split; auto. num.
Qed.
Lemma set_bud : forall P n e nt ts B, bounds P -> good ts -> W ts + V nt <= B ->
  bud B (post B (W ts + V nt)) (c_set_loop P n e nt ts).
Proof.
  intros P n. induction n as [|n IH]; intros e nt ts B S G L; cbn [c_set_loop];
    destruct (olow_in nt SET_OPERATORS) eqn:D; try leaf.
  eapply bud_bind; [base|]. intros b0 [[et n1] r1] (-> & G1 & G1' & H1). cbv zeta.
  eapply bud_bind; [base|]. intros b0 [[et2 n2] r2] (-> & G2 & G2' & _ & H2).
  eapply (bud_bind _ (fun b _ => B <= b + 2 + W et2)).
  { destruct et2 as [|t2 r3]; [leaf|]. match goal with |- bud _ _ (if ?b then _ else _) => destruct b end;
      (eapply bud_weak; [base|]; names; num). }
  intros b3 right H3.
  eapply bud_bind; [apply opt_alias_bud; [num|gd]|]. intros b4 [[e4 n4] r4] (-> & G4 & H4).
  eapply bud_weak; [apply IH; auto; num|]. names. unfold post. split; [gd|num].
Qed.
Lemma join_bud : forall P n e nt ts B, bounds P -> good ts -> W ts + V nt <= B ->
  bud B (post B (W ts + V nt)) (c_join_loop P n e nt ts).
Proof.
  intros P n. induction n as [|n IH]; intros e nt ts B S G L; cbn [c_join_loop];
    destruct (olow_in nt JOIN_VALUES) eqn:D; try leaf.
  eapply bud_bind; [base|]. intros b0 [[et n1] r1] (-> & G1 & G1' & H1). cbv zeta.
  eapply (bud_bind _ (fun b x => let '(et2, n2, r2) := x in b = B /\ good et2 /\ good r2 /\ W et2 + V n2 + W r2 <= W ts)).
  { match goal with |- bud _ _ (if ?b then _ else _) => destruct b end.
    - assert (G0 : good []) by (apply (good_r r1 []); rewrite app_nil_r; exact G1). destruct n1; leaf.
    - eapply bud_weak; [base|]. intros b [[x y] z] (-> & G2 & G2' & _ & H2). repeat split; auto. num. }
  intros b0 [[et2 n2] r2] (-> & G2 & G2' & H2).
  eapply bud_bind; [base|]. intros b3 right H3.
  eapply bud_bind; [base|]. intros b0 [[et3 n3] r3] (-> & G3 & G3' & _ & H3').
  eapply (bud_bind _ (fun b _ => b3 <= b + V n2 + W et3)).
  { repeat stp3. }
  intros b4 [on_ using_] H4.
  eapply bud_bind; [apply opt_alias_bud; [num|gd]|]. intros b5 [[e5 n5] r5] (-> & G5 & H5).
  eapply bud_weak; [apply IH; auto; num|]. names. unfold post. split; [gd|num].
Qed.
Lemma from_body_bud : forall P ts B, bounds P -> bounds' P -> good ts -> 1 + W ts <= B ->
  bud B (fun b _ => B <= b + 1 + W ts) (c_from_body P ts).
Proof.
  intros P ts B S S' G L. unfold c_from_body.
  eapply bud_bind; [eapply from_item_bud; eauto|]. intros b1 [[e1 n1] r1] [G1 H1].
  eapply bud_bind; [apply opt_alias_bud; [num|gd]|]. intros b2 [[e2 n2] r2] (-> & G2 & H2).
  eapply bud_bind; [eapply set_bud; eauto; num|]. intros b3 [[e3 n3] r3] [G3 H3].
  eapply bud_bind; [eapply join_bud; eauto; num|]. intros b4 [[e4 n4] r4] [G4 H4].
  leaf.
Qed.
Lemma parsers_zero : bounds (cparsers 0).
Proof. constructor; intros; cbn [cparsers c_expr c_select c_from c_stmt]; apply bud_err; num. Qed.
Lemma parsers_step : forall n, bounds (cparsers n) -> bounds' (cparsers n) -> bounds (cparsers (S n)).
Proof.
  intros n IH S'.
  constructor; intros; cbn [cparsers c_expr c_select c_from c_stmt]; apply bud_tick.
  - eapply bud_weak; [apply expr_body_bud; auto; num|]. names. unfold post. split; [gd|num].
  - eapply bud_weak; [apply select_body_bud; auto; num|]. names. num.
  - eapply bud_weak; [apply from_body_bud; auto; num|]. names. num.
  - eapply bud_weak; [apply stmt_body_bud; auto; num|]. names. num.
Qed.
(** the same for the whole cost *)
Lemma bud_cst : forall {A} B (F : Z -> A -> Prop) (c : counted A), bud B F c -> (forall b x, F b x -> 0 <= b) -> cst c <= B.
Proof. intros A B F [[x|e] [k q]] H K; unfold bud in H; cbn [fst] in H; [apply K in H; lia|exact H]. Qed.
Lemma stmt_cst : forall P eos ts, bounds P -> good ts -> cst (c_stmt P eos ts) <= 1 + W ts.
Proof. intros P eos ts S G. eapply bud_cst; [eapply b_stmt; eauto; lia|]. intros b x H. cbv beta in H. lia. Qed.
Lemma from_cst : forall P ts, bounds P -> good ts -> cst (c_from P ts) <= 2 + W ts.
Proof. intros P ts S G. eapply bud_cst; [eapply b_from; eauto; lia|]. intros b x H. cbv beta in H. lia. Qed.
End Budget.
