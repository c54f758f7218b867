(** The fuel of the parsers suffices: the parsers never run out of it, and more of it changes
    nothing. *)
From Verif Require Import PyStr PyFloat Lib Tokeniser Ast Parser.
Local Open Scope str_scope.
Local Open Scope list_scope.

Definition rel {A} (F : A -> Prop) (r1 r2 : R A) : Prop :=
  r1 = r2 /\ match r1 with Ok x => F x | Err e => e <> OutOfFuel end.
Lemma rel_bind : forall {A B} (F : A -> Prop) (G : B -> Prop) r1 r2 f1 f2,
  rel F r1 r2 -> (forall x, F x -> rel G (f1 x) (f2 x)) -> rel G (rbind r1 f1) (rbind r2 f2).
Proof.
  intros A B F G r1 r2 f1 f2 [<- H] K. destruct r1 as [x|e]; cbn; auto. split; auto.
Qed.
Lemma rel_ok : forall {A} (F : A -> Prop) x, F x -> rel F (Ok x) (Ok x).
Proof. intros. split; auto. Qed.
Lemma rel_err : forall {A} (F : A -> Prop) e, e <> OutOfFuel -> rel F (Err e) (Err e).
Proof. intros. split; auto. Qed.
Lemma rel_weak : forall {A} (F G : A -> Prop) r1 r2, rel F r1 r2 -> (forall x, F x -> G x) -> rel G r1 r2.
Proof. intros A F G r1 r2 [<- H] K. split; auto. destruct r1; auto. Qed.

Definition eok (eos : option exn) : Prop := eos <> Some OutOfFuel.
Lemma eok_none : eok None.
Proof. discriminate. Qed.
Definition on {A} (o : option A) : nat := match o with Some _ => 1 | None => 0 end.
Definition fm (o : option str) : nat := match o with Some (_ :: _) => 1 | _ => 0 end.
Definition em (o : eopts) (ts : list str) : nat := length ts + fm (o_first o).
Definition eres (m : nat) (x : node * option str * list str) : Prop :=
  let '(_, nt, ts) := x in length ts + on nt < m.
Definition sim (P Q : parsers_t) (k : nat) : Prop :=
  (forall eos o ts, eok eos -> 2 * em o ts < k -> rel (eres (em o ts)) (p_expr P eos o ts) (p_expr Q eos o ts))
  /\ (forall eos ts, eok eos -> 2 * length ts + 1 < k -> rel (fun _ => True) (p_select P eos ts) (p_select Q eos ts))
  /\ (forall ts, 2 * length ts + 1 < k -> rel (fun _ => True) (p_from P ts) (p_from Q ts))
  /\ (forall eos ts, eok eos -> 2 * length ts + 1 < k -> rel (fun _ => True) (p_stmt P eos ts) (p_stmt Q eos ts)).
Lemma fm_on : forall o, fm o <= on o.
Proof. destruct o as [[|]|]; cbn; lia. Qed.

(** ** Readers *)
Lemma next_opt_rel : forall eos ts, eok eos ->
  rel (fun x => length (snd x) + on (fst x) <= length ts) (next_opt eos ts) (next_opt eos ts).
Proof.
  intros eos ts E. split; auto. destruct ts; cbn; [|lia]. destruct eos; cbn; auto. congruence.
Qed.
Lemma next_req_rel : forall eos ts, eok eos ->
  rel (fun x => length (snd x) + 1 <= length ts) (next_req eos ts) (next_req eos ts).
Proof.
  intros eos ts E. split; auto. destruct ts; cbn; [|lia]. destruct eos; cbn; [congruence|discriminate].
Qed.
Lemma until_close_loop_rel : forall eos ts d, eok eos ->
  rel (fun x => length (fst x) + length (snd x) <= length ts) (until_close_loop eos d ts) (until_close_loop eos d ts).
Proof.
  intros eos ts d E. revert d. induction ts as [|t r IH]; intros d; cbn [until_close_loop].
  - destruct eos; [apply rel_err; congruence|apply rel_ok; cbn; lia].
  - destruct (str_eqb t ")" && Z.eqb d 0); [apply rel_ok; cbn; lia|].
    eapply rel_bind; [apply IH|]. intros [a rest] H. cbn in H. apply rel_ok. cbn. lia.
Qed.
Lemma until_close_rel : forall eos first ts, eok eos ->
  rel (fun x => length (fst x) + length (snd x) <= length ts + on first) (until_close eos first ts) (until_close eos first ts).
Proof.
  intros eos first ts E. unfold until_close. eapply rel_weak; [apply until_close_loop_rel; auto|].
  intros x. destruct first as [[|]|]; cbn; lia.
Qed.
Lemma until_loop_rel : forall eos stop keep ts a b c prev, eok eos ->
  rel (fun x => let '(l, nt, r) := x in length l + on nt + length r <= length ts
         /\ (forall t, nt = Some t -> mem (lower t) stop = true))
    (until_loop eos stop keep a b c prev ts) (until_loop eos stop keep a b c prev ts).
Proof.
  intros eos stop keep ts a b c prev E. revert a b c prev. induction ts as [|t r IH]; intros a b c prev; cbn [until_loop].
  - destruct eos; [apply rel_err; congruence|apply rel_ok; cbn; split; [lia|discriminate]].
  - match goal with |- rel _ (if ?x then _ else _) _ => destruct x eqn:X end.
    + apply rel_ok. cbn. split; [lia|]. intros u U. injection U as <-.
      rewrite !andb_true_iff in X. tauto.
    + match goal with |- rel _ (let '(_, _) := ?x in _) _ => destruct x as [[a' b'] c'] end.
      eapply rel_bind; [apply IH|]. intros [[l nt] rest] [H1 H2]. apply rel_ok. cbn. split; [lia|auto].
Qed.
Lemma until_one_of_rel : forall eos stop first keep ts, eok eos ->
  rel (fun x => let '(l, nt, r) := x in length l + on nt + length r <= length ts + on first
         /\ (forall t, nt = Some t -> mem (lower t) stop = true))
    (until_one_of eos stop first keep ts) (until_one_of eos stop first keep ts).
Proof.
  intros eos stop first keep ts E. unfold until_one_of.
  eapply rel_bind; [apply until_loop_rel; auto|]. intros [[l nt] r] [H1 H2]. apply rel_ok.
  split; auto. destruct first; cbn in *; lia.
Qed.
Lemma until_not_in_rel : forall eos kept first ts, eok eos ->
  rel (fun x => let '(l, nt, r) := x in length l + on nt + length r <= length ts + on first /\ on first <= length l)
    (until_not_in eos kept first ts) (until_not_in eos kept first ts).
Proof.
  intros eos kept first ts E. unfold until_not_in.
  assert (H : rel (fun x => let '(l, nt, r) := x in length l + on nt + length r <= length ts)
    (until_not_in_loop eos kept ts) (until_not_in_loop eos kept ts)).
  { induction ts as [|t r IH]; cbn [until_not_in_loop].
    - destruct eos; [apply rel_err; congruence|apply rel_ok; cbn; lia].
    - destruct (mem (lower t) kept); [|apply rel_ok; cbn; lia].
      eapply rel_bind; [apply IH|]. intros [[l nt] rest] H. apply rel_ok. cbn. lia. }
  eapply rel_bind; [apply H|]. intros [[l nt] r] H1. apply rel_ok. destruct first; cbn in *; lia.
Qed.
Lemma rassert_rel : forall b, rel (fun _ => b = true) (rassert b) (rassert b).
Proof. intros []; split; cbn; auto. discriminate. Qed.
Lemma float_rel : forall s, rel (fun _ => True) (float_text s) (float_text s).
Proof.
  intros s. split; auto. unfold float_text. destruct (split dot s) as [|a [|b [|]]]; try discriminate;
    destruct (Z.of_N _ =? 0)%Z; auto.
Qed.
Lemma py_int_rel : forall s, rel (fun _ => True) (py_int s) (py_int s).
Proof.
  intros s. split; auto. unfold py_int.
  match goal with |- match (let '(_, _) := ?x in _) with _ => _ end => destruct x as [n b] end.
  destruct (digits_us false b); auto. discriminate.
Qed.
Lemma string_parse_rel : forall eos ts q p, eok eos ->
  rel (fun x => length (snd x) <= length ts) (string_parse eos ts q p) (string_parse eos ts q p).
Proof.
  intros eos ts q p E. unfold string_parse. eapply rel_bind; [apply next_opt_rel; auto|].
  intros [c ts1] H. cbn [fst snd] in H. destruct (opt_eqb c q); [apply rel_ok; cbn; lia|].
  eapply rel_bind; [apply next_req_rel; auto|]. intros [e ts2] H2. cbn [fst snd] in H2.
  destruct c; [|apply rel_err; discriminate]. destruct (str_eqb q e); [apply rel_ok; cbn; lia|apply rel_err; discriminate].
Qed.

(** ** Calls of the parsers *)
Lemma expr_rel : forall P Q k eos o ts, sim P Q k -> eok eos -> 2 * em o ts < k ->
  rel (eres (em o ts)) (p_expr P eos o ts) (p_expr Q eos o ts).
Proof. intros P Q k eos o ts (A & _) E L. auto. Qed.
Lemma select_rel : forall P Q k eos ts, sim P Q k -> eok eos -> 2 * length ts + 1 < k ->
  rel (fun _ => True) (p_select P eos ts) (p_select Q eos ts).
Proof. intros P Q k eos ts (_ & A & _) E L. auto. Qed.
Lemma from_rel : forall P Q k ts, sim P Q k -> 2 * length ts + 1 < k ->
  rel (fun _ => True) (p_from P ts) (p_from Q ts).
Proof. intros P Q k ts (_ & _ & A & _) L. auto. Qed.
Lemma stmt_rel : forall P Q k eos ts, sim P Q k -> eok eos -> 2 * length ts + 1 < k ->
  rel (fun _ => True) (p_stmt P eos ts) (p_stmt Q eos ts).
Proof. intros P Q k eos ts (_ & _ & _ & A) E L. auto. Qed.

(** Case analysis on the code; [base] closes the calls. *)
Ltac num := unfold eres, em in *; cbn [fst snd on o_first length opts0 opts_rh opts_until] in *;
  repeat match goal with
  | H : _ /\ _ |- _ => destruct H
  | |- context [fm ?o] => lazymatch goal with H : fm o <= on o |- _ => fail | _ => pose proof (fm_on o) end
  | _ : context [fm ?o] |- _ => lazymatch goal with H : fm o <= on o |- _ => fail | _ => pose proof (fm_on o) end
  end; cbn [on] in *; lia.
Ltac ek := solve [assumption | apply eok_none].
Ltac base := first
  [ apply next_opt_rel; ek | apply next_req_rel; ek | apply until_close_rel; ek
  | apply until_one_of_rel; ek | apply until_not_in_rel; ek | apply rassert_rel | apply float_rel | apply py_int_rel
  | apply string_parse_rel; ek
  | eapply expr_rel; [eassumption|ek|num]
  | eapply select_rel; [eassumption|ek|num]
  | eapply from_rel; [eassumption|num]
  | eapply stmt_rel; [eassumption|ek|num] ].
Ltac parts := repeat match goal with x : (_ * _)%type |- _ => destruct x as [? ?]; cbn [fst snd] in * end; cbv beta iota.
Lemma exprlist_loop_rel : forall P Q k cbt ts acc par sq ins, sim P Q k -> 2 * (length acc + length ts) < k ->
  rel (fun _ => True) (exprlist_loop P cbt acc par sq ins ts) (exprlist_loop Q cbt acc par sq ins ts).
Proof.
  intros P Q k cbt ts. remember (length ts) as n eqn:LN. assert (LE : length ts <= n) by lia. clear LN. revert ts LE.
  induction n as [|n IH]; intros ts LE acc par sq ins S L.
  { destruct ts; [|cbn in LE; lia]. apply rel_ok. auto. }
  destruct ts as [|t r]; [apply rel_ok; auto|]. cbn [exprlist_loop].
  match goal with |- rel _ (let '(_, _) := ?x in _) _ => destruct x as [[a b] c] end.
  cbn in LE. destruct r as [|m r].
  - eapply rel_bind; [eapply expr_rel; [eassumption|ek|]|].
    + unfold em. cbn. rewrite app_length. cbn. lia.
    + intros [[e nt] ts'] _. apply rel_ok. auto.
  - destruct (str_eqb m "," && Z.eqb a 0 && Z.eqb b 0 && negb c).
    + eapply rel_bind; [eapply expr_rel; [eassumption|ek|]|].
      * unfold em. cbn. rewrite app_length. cbn. lia.
      * intros [[e nt] ts'] _. eapply rel_bind; [apply IH|]; auto; cbn in *; try lia. intros es _. apply rel_ok. auto.
    + apply IH; auto; cbn in *; rewrite ?app_length; cbn; lia.
Qed.
Lemma exprlist_rel : forall P Q k cbt ts, sim P Q k -> 2 * length ts < k ->
  rel (fun _ => True) (exprlist P cbt ts) (exprlist Q cbt ts).
Proof. intros. eapply exprlist_loop_rel; eauto. Qed.
Lemma orderby_item_rel : forall P Q k ts, sim P Q k -> 2 * length ts < k ->
  rel (fun _ => True) (orderby_item P ts) (orderby_item Q ts).
Proof.
  intros P Q k ts S L. unfold orderby_item. eapply rel_bind; [base|]. intros [[et nt] r] [H _].
  eapply rel_bind; [base|]. intros [[e nt'] r'] _. apply rel_ok. auto.
Qed.
Lemma orderby_loop_rel : forall P Q k n ts, sim P Q k -> 2 * length ts < k -> length ts < n ->
  rel (fun _ => True) (orderby_loop P n ts) (orderby_loop Q n ts).
Proof.
  intros P Q k n. induction n as [|n IH]; intros ts S L LN; [lia|]. cbn [orderby_loop].
  eapply rel_bind; [base|]. intros [[et nt] r] [H _].
  eapply rel_bind; [eapply orderby_item_rel; [eassumption|num]|]. intros e _.
  destruct nt as [[|c t]|]; cbn [truthy]; try (apply rel_ok; auto). cbn [on] in H.
  eapply rel_bind; [apply IH; auto; lia|]. intros es _. apply rel_ok. auto.
Qed.
Lemma orderby_rel : forall P Q k ts, sim P Q k -> 2 * length ts < k ->
  rel (fun _ => True) (orderby P ts) (orderby Q ts).
Proof. intros. eapply orderby_loop_rel; eauto. Qed.
Ltac base2 := first [ base | eapply exprlist_rel; [eassumption|num] | eapply orderby_rel; [eassumption|num] ].
(** one step of the code *)
Ltac leaf := first [ apply rel_ok; first [exact I | num] | apply rel_err; discriminate ].
Ltac names := let x := fresh "x" in let H := fresh "H" in intros x H; cbv beta in H; parts; cbv beta iota in H; try clear x.
Ltac stp := first
  [ leaf
  | match goal with |- rel _ (rbind (if ?b then _ else _) _) _ => destruct b eqn:? end
  | match goal with |- rel _ (rbind (match ?b with _ => _ end) _) _ => destruct b eqn:? end
  | eapply rel_bind; [base2 | names]
  | match goal with |- rel _ (if ?b then _ else _) _ => destruct b eqn:? end
  | match goal with |- rel _ (match ?b with _ => _ end) _ => destruct b eqn:? end
  | progress cbn [rbind] ].
Lemma groupby_rel : forall P Q k ts, sim P Q k -> 2 * length ts < k ->
  rel (fun _ => True) (groupby P ts) (groupby Q ts).
Proof.
  intros P Q k ts S L. unfold groupby. eapply rel_bind; [base|]. intros [t r] H. cbn [fst snd] in H.
  eapply rel_bind; [base|]. intros [[et nt] r2] [H2 _].
  assert (on (if str_eqb (lower t) "rollup" then None else Some t) <= 1) by (destruct (str_eqb _ _); cbn; lia).
  repeat stp.
Qed.
Lemma limit_rel : forall P Q k ts, sim P Q k -> 2 * length ts < k ->
  rel (fun _ => True) (limit_clause P ts) (limit_clause Q ts).
Proof. intros P Q k ts S L. unfold limit_clause. repeat stp. Qed.
Definition when_else (nt : option str) : Prop := forall t, nt = Some t -> mem (lower t) ["when"; "else"] = true.
Lemma case_loop_rel : forall P Q k n nt ts whens els, sim P Q k -> 2 * length ts < k -> length ts + on nt < n -> when_else nt ->
  rel (fun _ => True) (case_loop P n nt ts whens els) (case_loop Q n nt ts whens els).
Proof.
  intros P Q k n. induction n as [|n IH]; intros nt ts whens els S L LN W; [lia|]. cbn [case_loop].
  destruct nt as [[|c t]|]; cbn [truthy]; try (apply rel_ok; auto). cbn [on] in LN.
  unfold olow_is, olower, option_map, opt_eqb. assert (W1 := W _ eq_refl). destruct (str_eqb (lower (c :: t)) "when") eqn:EW.
  - eapply rel_bind; [base|]. intros [[et nt1] r1] [H1 _]. eapply rel_bind; [base|]. intros [[e1 z1] z2] _.
    eapply rel_bind; [base|]. intros [[et2 nt2] r2] [H2 W2]. eapply rel_bind; [base|]. intros [[e2 z3] z4] _.
    apply IH; auto; cbn [on] in *; lia.
  - destruct (str_eqb (lower (c :: t)) "else") eqn:EE.
    + eapply rel_bind; [base|]. intros [[et nt1] r1] [H1 W2]. eapply rel_bind; [base|]. intros [[e1 z1] z2] _.
      apply IH; auto; try (cbn [on] in *; lia). intros u U. apply W2 in U. discriminate.
    + exfalso. cbn [mem existsb] in W1. unfold mem in W1. cbn [existsb] in W1. rewrite EW, EE in W1. discriminate.
Qed.
Lemma case_parse_rel : forall P Q k ts, sim P Q k -> 2 * length ts < k ->
  rel (fun _ => True) (case_parse P ts) (case_parse Q ts).
Proof.
  intros P Q k ts S L. unfold case_parse. eapply rel_bind; [base|]. intros [t r] H. cbn [fst snd] in H.
  destruct (str_eqb (lower t) "when") eqn:EW.
  - eapply rel_bind; [eapply case_loop_rel; [eassumption|lia|cbn [on]; lia|]|].
    + intros u U. injection U as <-. unfold mem. cbn [existsb]. rewrite EW. auto.
    + intros [w e] _. apply rel_ok. auto.
  - eapply rel_bind; [base|]. intros [[et nt] r1] [H1 W]. cbn [on] in H1. eapply rel_bind; [base|]. intros [[e1 z1] z2] _.
    eapply rel_bind; [eapply case_loop_rel; [eassumption|lia| |]|].
    + destruct nt; cbn [on]; lia.
    + intros u U. apply W in U. unfold mem in *. cbn [existsb] in *. rewrite orb_false_r in U. rewrite U. auto.
    + intros [w e] _. apply rel_ok. auto.
Qed.
Ltac base3 := first [ base2 | eapply case_parse_rel; [eassumption|num] | eapply groupby_rel; [eassumption|num]
  | eapply limit_rel; [eassumption|num] ].
Lemma rel_assoc : forall {A B C} (F : C -> Prop) (a a' : R A) (f f' : A -> R B) (g g' : B -> R C),
  rel F (rbind a (fun x => rbind (f x) g)) (rbind a' (fun x => rbind (f' x) g')) ->
  rel F (rbind (rbind a f) g) (rbind (rbind a' f') g').
Proof. intros A B C F a a' f f' g g' H. destruct a, a'; exact H. Qed.
Ltac stp3 := first
  [ leaf
  | match goal with |- rel _ (rbind (rbind _ _) _) _ => apply rel_assoc end
  | match goal with |- rel _ (rbind (if ?b then _ else _) _) _ => destruct b eqn:? end
  | match goal with |- rel _ (rbind (match ?b with _ => _ end) _) _ => destruct b eqn:? end
  | eapply rel_bind; [base3 | names]
  | match goal with |- rel _ (if ?b then _ else _) _ => destruct b eqn:? end
  | match goal with |- rel _ (match ?b with _ => _ end) _ => destruct b eqn:? end
  | progress cbn [rbind] ].
Definition nres (l m : nat) {A} (x : A * option str * list str) : Prop :=
  let '(_, nt, ts) := x in length ts <= l /\ length ts + on nt <= m.
Definition tres (m : nat) {A} (x : A * list str) : Prop := length (snd x) <= m.

Lemma expr_first_rel : forall P Q k eos o main ts, sim P Q k -> eok eos -> 2 * length ts + 1 < k ->
  rel (nres (length ts) (length ts)) (expr_first P eos o main ts) (expr_first Q eos o main ts).
Proof. intros P Q k eos o main ts S E L. unfold expr_first, nres. repeat stp3. Qed.
Lemma cast_rel : forall P Q k eos o ts, sim P Q k -> eok eos -> 2 * length ts + 1 < k ->
  rel (tres (length ts)) (cast_call P eos o ts) (cast_call Q eos o ts).
Proof. intros P Q k eos o ts S E L. unfold cast_call, tres. repeat stp3. Qed.
Lemma array_agg_rel : forall P Q k eos o ts, sim P Q k -> eok eos -> 2 * length ts + 1 < k ->
  rel (tres (length ts)) (array_agg_call P eos o ts) (array_agg_call Q eos o ts).
Proof.
  intros P Q k eos o ts S E L. unfold array_agg_call, tres.
  eapply rel_bind; [base|]. intros [t r] H. cbn [fst snd] in H. cbv zeta.
  assert (on (if str_eqb (lower t) "distinct" then None else Some t) <= 1) by (destruct (str_eqb _ _); cbn; lia).
  repeat stp3.
Qed.
Lemma count_rel : forall P Q k eos ts, sim P Q k -> eok eos -> 2 * length ts + 1 < k ->
  rel (tres (length ts)) (count_call P eos ts) (count_call Q eos ts).
Proof.
  intros P Q k eos ts S E L. unfold count_call, tres.
  eapply rel_bind; [base|]. intros [t r] H. cbn [fst snd] in H. cbv zeta.
  assert (on (if str_eqb (lower t) "distinct" then None else Some t) <= 1) by (destruct (str_eqb _ _); cbn; lia).
  repeat stp3.
Qed.
Lemma other_rel : forall P Q k eos o main ts, sim P Q k -> eok eos -> 2 * length ts + 1 < k ->
  rel (tres (length ts)) (other_call P eos o main ts) (other_call Q eos o main ts).
Proof. intros P Q k eos o main ts S E L. unfold other_call, tres. repeat stp3. Qed.
Lemma call_rel : forall P Q k eos o main ts, sim P Q k -> eok eos -> 2 * length ts + 1 < k ->
  rel (nres (length ts) (length ts)) (call P eos o main ts) (call Q eos o main ts).
Proof.
  intros P Q k eos o main ts S E L. unfold call.
  eapply (rel_bind (tres (length ts))).
  - repeat match goal with |- rel _ (if ?b then _ else _) _ => destruct b end;
      [eapply cast_rel|eapply array_agg_rel|eapply count_rel|eapply other_rel]; eauto.
  - intros [e r] H. unfold tres in H. cbn [fst snd] in H. unfold nres.
    repeat stp3.
Qed.
Lemma second_rel : forall P Q k eos o main nt ts, sim P Q k -> eok eos -> 2 * length ts + 1 < k ->
  rel (nres (length ts) (length ts + on nt)) (expr_second P eos o main nt ts) (expr_second Q eos o main nt ts).
Proof.
  intros P Q k eos o main nt ts S E L. unfold expr_second.
  destruct (opt_eqb nt "(").
  { eapply rel_weak; [eapply call_rel; eauto|]. intros [[e n'] r]. unfold nres. lia. }
  unfold nres. repeat stp3.
Qed.
Lemma over_rel : forall P Q k eos e nt ts, sim P Q k -> eok eos -> 2 * length ts + 1 < k ->
  rel (nres (length ts) (length ts + on nt)) (over_clause P eos e nt ts) (over_clause Q eos e nt ts).
Proof. intros P Q k eos e nt ts S E L. unfold over_clause, nres. repeat stp3. Qed.
Lemma dot_rel : forall P Q k eos u n e nt ts, sim P Q k -> eok eos -> 2 * length ts + 1 < k -> length ts + on nt <= n ->
  rel (nres (length ts) (length ts + on nt)) (dot_loop P n eos u e nt ts) (dot_loop Q n eos u e nt ts).
Proof.
  intros P Q k eos u n. induction n as [|n IH]; intros e nt ts S E L LN; cbn [dot_loop];
    destruct (opt_eqb nt ".") eqn:D; try (unfold nres; leaf).
  - destruct nt; [cbn in LN; lia|discriminate].
  - destruct nt; [cbn [on] in *|discriminate]. eapply rel_bind; [base|]. intros [[e1 nt1] r1] H. unfold eres, em in H. cbn in H.
    eapply rel_weak; [apply IH; auto; num|]. intros [[e2 nt2] r2]. unfold nres. lia.
Qed.
Lemma index_rel : forall P Q k eos n e nt ts, sim P Q k -> eok eos -> 2 * length ts + 1 < k -> length ts + on nt <= n ->
  rel (nres (length ts) (length ts + on nt)) (index_loop P n eos e nt ts) (index_loop Q n eos e nt ts).
Proof.
  intros P Q k eos n. induction n as [|n IH]; intros e nt ts S E L LN; cbn [index_loop];
    destruct (opt_eqb nt "[") eqn:D; try (unfold nres; leaf).
  - destruct nt; [cbn in LN; lia|discriminate].
  - destruct nt; [cbn [on] in *|discriminate]. eapply rel_bind; [base|]. intros [[at_ nt1] r1] [H _].
    eapply rel_bind; [base3|]. intros args _. eapply rel_bind; [base|]. intros [nt2 r2] H2. cbn [fst snd on] in *.
    eapply rel_weak; [apply IH; auto; num|]. intros [[e2 nt3] r3]. unfold nres. lia.
Qed.
Lemma postfix_rel : forall P Q k eos o e nt ts, sim P Q k -> eok eos -> 2 * length ts + 1 < k ->
  rel (nres (length ts) (length ts + on nt)) (expr_postfix P eos o e nt ts) (expr_postfix Q eos o e nt ts).
Proof.
  intros P Q k eos o e nt ts S E L. unfold expr_postfix.
  eapply rel_bind; [eapply dot_rel; eauto; destruct nt; cbn; lia|].
  intros [[e1 nt1] r1] H1. unfold nres in H1.
  eapply (rel_bind (nres (length r1) (length r1 + on nt1))).
  - unfold nres. repeat stp3.
  - intros [[e2 nt2] r2] H2. unfold nres in H2.
    eapply rel_weak; [eapply index_rel; eauto|].
    + lia.
    + destruct nt2; cbn; lia.
    + intros [[e3 nt3] r3]. unfold nres. lia.
Qed.
Lemma compare_rel : forall P Q k eos o e nt ts, sim P Q k -> eok eos -> 2 * length ts + 1 < k ->
  rel (nres (length ts) (length ts + on nt)) (expr_compare P eos o e nt ts) (expr_compare Q eos o e nt ts).
Proof. intros P Q k eos o e nt ts S E L. unfold expr_compare, nres. repeat stp3. Qed.
Lemma bool_rel : forall P Q k eos o e nt ts, sim P Q k -> eok eos -> 2 * length ts + 1 < k ->
  rel (nres (length ts) (length ts + on nt)) (expr_bool P eos o e nt ts) (expr_bool Q eos o e nt ts).
Proof. intros P Q k eos o e nt ts S E L. unfold expr_bool, nres. repeat stp3. Qed.
Lemma except_rel : forall P Q k eos e nt ts, sim P Q k -> eok eos -> 2 * length ts + 1 < k ->
  rel (nres (length ts) (length ts + on nt)) (expr_except P eos e nt ts) (expr_except Q eos e nt ts).
Proof. intros P Q k eos e nt ts S E L. unfold expr_except, nres. repeat stp3. Qed.
Lemma replace_rel : forall P Q k eos e nt ts, sim P Q k -> eok eos -> 2 * length ts + 1 < k ->
  rel (nres (length ts) (length ts + on nt)) (expr_replace P eos e nt ts) (expr_replace Q eos e nt ts).
Proof. intros P Q k eos e nt ts S E L. unfold expr_replace, nres. repeat stp3. Qed.
Lemma alias_rel : forall P Q k eos o e nt ts, sim P Q k -> eok eos -> 2 * length ts + 1 < k ->
  rel (nres (length ts) (length ts + on nt)) (expr_alias P eos o e nt ts) (expr_alias Q eos o e nt ts).
Proof. intros P Q k eos o e nt ts S E L. unfold expr_alias, nres. repeat stp3. Qed.
Lemma tail_rel : forall P Q k eos o e nt ts, sim P Q k -> eok eos -> 2 * length ts + 1 < k ->
  rel (nres (length ts) (length ts + on nt)) (expr_tail P eos o e nt ts) (expr_tail Q eos o e nt ts).
Proof.
  intros P Q k eos o e nt ts S E L. unfold expr_tail.
  destruct (o_right_hand o || o_chained o); [unfold nres; leaf|].
  eapply rel_bind; [eapply compare_rel; eauto|]. intros [[e1 n1] r1] H1. unfold nres in H1.
  eapply rel_bind; [eapply bool_rel; eauto; lia|]. intros [[e2 n2] r2] H2. unfold nres in H2.
  eapply rel_bind; [eapply except_rel; eauto; lia|]. intros [[e3 n3] r3] H3. unfold nres in H3.
  eapply rel_bind; [eapply replace_rel; eauto; lia|]. intros [[e4 n4] r4] H4. unfold nres in H4.
  eapply rel_weak; [eapply alias_rel; eauto; lia|]. intros [[e5 n5] r5]. unfold nres. lia.
Qed.
Lemma head_rel : forall P Q k eos o main ts, sim P Q k -> eok eos -> 2 * length ts + 1 < k ->
  rel (nres (length ts) (length ts)) (expr_head P eos o main ts) (expr_head Q eos o main ts).
Proof.
  intros P Q k eos o main ts S E L. unfold expr_head.
  eapply rel_bind; [eapply expr_first_rel; eauto|]. intros [[eo n1] r1] H1. unfold nres in H1.
  eapply (rel_bind (fun x => length (snd x) <= length r1 /\ length (snd x) + on (fst x) <= length r1 + on n1)).
  - destruct n1; cbn [is_none]; [leaf|]. eapply rel_weak; [base|]. intros [? ?]. cbn. lia.
  - intros [n2 r2] H2. cbn [fst snd] in H2. destruct eo; [unfold nres; leaf|].
    eapply rel_weak; [eapply second_rel; eauto; lia|]. intros [[e5 n5] r5]. unfold nres. lia.
Qed.
Lemma expr_body_rel : forall P Q k eos o ts, sim P Q k -> eok eos -> 2 * em o ts <= k ->
  rel (eres (em o ts)) (expr_body P eos o ts) (expr_body Q eos o ts).
Proof.
  intros P Q k eos o ts S E L. unfold expr_body.
  eapply (rel_bind (fun x => length (snd x) + 1 <= em o ts)).
  - unfold em. destruct (o_first o) as [[|c f]|].
    + eapply rel_weak; [base|]. intros [? ?]. cbn. lia.
    + apply rel_ok. cbn. lia.
    + eapply rel_weak; [base|]. intros [? ?]. cbn. lia.
  - intros [main r] H. cbn [fst snd] in H.
    eapply rel_bind; [eapply head_rel; eauto; lia|]. intros [[e1 n1] r1] H1. unfold nres in H1.
    eapply rel_bind; [eapply over_rel; eauto; lia|]. intros [[e2 n2] r2] H2. unfold nres in H2.
    eapply rel_bind; [eapply postfix_rel; eauto; lia|]. intros [[e3 n3] r3] H3. unfold nres in H3.
    eapply rel_weak; [eapply tail_rel; eauto; lia|]. intros [[e5 n5] r5]. unfold nres, eres. lia.
Qed.

(** ** Statements *)
Lemma select_body_rel : forall P Q k eos ts, sim P Q k -> eok eos -> 2 * length ts + 1 <= k ->
  rel (fun _ => True) (select_body P eos ts) (select_body Q eos ts).
Proof.
  intros P Q k eos ts S E L. unfold select_body.
  eapply rel_bind; [base|]. intros [t r] H. cbn [fst snd] in H.
  eapply (rel_bind (fun x => let '(_, _, _, first, ts') := x in length ts' + on first <= length ts)).
  { repeat stp3. }
  intros [[[[a b] c] first] r1] H1.
  eapply rel_bind; [base|]. intros [[et nt] r2] [H2 _].
  eapply rel_bind; [base3|]. intros exprs _.
  Local Ltac stage r nt := eapply (rel_bind (fun x => let '(_, nt', ts') := x in length ts' <= length r /\ length ts' + on nt' <= length r + on nt));
    [match goal with |- rel _ (if olow_is ?n _ then _ else _) _ => destruct n as [?|]; cbn [olow_is olower option_map opt_eqb];
       [cbn [on] in *; repeat stp3 | leaf] end|].
  stage r2 nt. intros [[f n3] r3] H3.
  stage r3 n3. intros [[w n4] r4] H4.
  stage r4 n4. intros [[g n5] r5] H5.
  stage r5 n5. intros [[h n6] r6] H6.
  stage r6 n6. intros [[od n7] r7] H7.
  stage r7 n7. intros [[li n8] r8] H8.
  stage r8 n8. intros [[off n9] r9] H9.
  apply rel_ok. auto.
Qed.
Lemma with_loop_rel : forall P Q k eos n ts, sim P Q k -> eok eos -> 2 * length ts + 1 < k -> length ts < n ->
  rel (tres (length ts)) (with_loop P n eos ts) (with_loop Q n eos ts).
Proof.
  intros P Q k eos n. induction n as [|n IH]; intros ts S E L LN; [lia|]. cbn [with_loop].
  eapply rel_bind; [base|]. intros [name r1] H1. cbn [fst snd] in H1.
  eapply rel_bind; [base|]. intros [t2 r2] H2. cbn [fst snd] in H2. eapply rel_bind; [base|]. intros [] _.
  eapply rel_bind; [base|]. intros [t3 r3] H3. cbn [fst snd] in H3. eapply rel_bind; [base|]. intros [] _.
  eapply rel_bind; [base|]. intros [at_ r4] H4. cbn [fst snd] in H4. eapply rel_bind; [base|]. intros q _.
  eapply rel_bind; [base|]. intros [sep r5] H5. cbn [fst snd on] in *.
  unfold tres. destruct (str_eqb (lower sep) "select"); [leaf|].
  eapply rel_bind; [apply IH; auto; lia|]. intros [qs r6] H6. unfold tres in H6. cbn [snd] in H6. leaf.
Qed.
Lemma stmt_body_rel : forall P Q k eos ts, sim P Q k -> eok eos -> 2 * length ts + 1 <= k ->
  rel (fun _ => True) (stmt_body P eos ts) (stmt_body Q eos ts).
Proof.
  intros P Q k eos ts S E L. unfold stmt_body. eapply rel_bind; [base|]. intros [t r] H. cbn [fst snd] in H.
  destruct (str_eqb (lower t) "select"); [base|]. destruct (str_eqb (lower t) "with"); [|leaf].
  unfold with_parse. eapply rel_bind; [eapply with_loop_rel; eauto; lia|]. intros [qs r1] H1. unfold tres in H1. cbn [snd] in H1.
  repeat stp3.
Qed.
Lemma from_alias_rel : forall e t ts,
  rel (nres (length ts) (length ts)) (from_alias e t ts) (from_alias e t ts).
Proof. intros. unfold from_alias, nres. repeat stp3. Qed.
Lemma unnest_rel : forall P Q k ts, sim P Q k -> 2 * length ts + 1 < k ->
  rel (nres (length ts) (length ts)) (unnest_parse P ts) (unnest_parse Q ts).
Proof.
  intros P Q k ts S L. unfold unnest_parse.
  eapply rel_bind; [base|]. intros [t r] H. cbn [fst snd] in H. eapply rel_bind; [base|]. intros [] _.
  eapply rel_bind; [base|]. intros [at_ r1] H1. cbn [fst snd] in H1. eapply rel_bind; [base3|]. intros args _.
  eapply rel_bind; [base|]. intros [n2 r2] H2. cbn [fst snd on] in *.
  eapply (rel_bind (nres (length r1) (length r1))).
  - destruct n2 as [t2|]; [|unfold nres; leaf]. cbn [on] in H2. destruct (negb _ && _ && _); [|unfold nres; leaf].
    eapply rel_weak; [apply from_alias_rel|]. intros [[? ?] ?]. unfold nres. lia.
  - intros [[e3 n3] r3] H3. unfold nres in *. repeat stp3.
Qed.
Lemma table_dot_rel : forall P Q k n e nt ts, sim P Q k -> 2 * length ts + 1 < k -> length ts + on nt <= n ->
  rel (nres (length ts) (length ts + on nt)) (table_dot_loop P n e nt ts) (table_dot_loop Q n e nt ts).
Proof.
  intros P Q k n. induction n as [|n IH]; intros e nt ts S L LN; cbn [table_dot_loop];
    destruct (opt_eqb nt ".") eqn:D; try (unfold nres; leaf).
  - destruct nt; [cbn in LN; lia|discriminate].
  - destruct nt; [cbn [on] in *|discriminate]. eapply rel_bind; [base|]. intros [[e1 nt1] r1] H. unfold eres, em in H. cbn in H.
    eapply rel_weak; [apply IH; auto; num|]. intros [[e2 nt2] r2]. unfold nres. lia.
Qed.
Lemma from_item_rel : forall P Q k ts, sim P Q k -> 2 * length ts + 1 <= k ->
  rel (fun x => let '(_, nt, r) := x in length r + on nt + 1 <= length ts) (from_item P ts) (from_item Q ts).
Proof.
  intros P Q k ts S L. unfold from_item. eapply rel_bind; [base|]. intros [t r] H. cbn [fst snd] in H.
  destruct (str_eqb t "(").
  { eapply rel_bind; [base|]. intros [at_ r1] H1. cbn [fst snd on] in H1.
    eapply (rel_bind (fun _ => True)).
    - assert (X : rel (fun _ => True) (p_stmt P None at_) (p_stmt Q None at_)) by base. destruct X as [X Y]. rewrite <- X.
      destruct (p_stmt P None at_) as [n|[]]; try leaf; try (apply rel_err; auto); base.
    - intros arg _. repeat stp3. }
  destruct (mem t QUOTES).
  { eapply rel_bind; [base|]. intros [name r1] H1. cbn [fst snd] in H1. eapply rel_bind; [base|]. intros [n2 r2] H2. cbn [fst snd] in H2.
    eapply rel_bind; [eapply table_dot_rel; eauto; [lia|destruct n2; cbn; lia]|]. intros [[e3 n3] r3] H3. unfold nres in H3. leaf. }
  destruct (str_eqb t "["); [repeat stp3|].
  destruct (str_eqb (lower t) "unnest").
  { eapply rel_weak; [eapply unnest_rel; eauto; lia|]. intros [[? ?] ?]. unfold nres. lia. }
  repeat stp3.
Qed.
(** a possible alias after the joined or combined expression *)
Lemma opt_alias_rel : forall e (nt : option str) ts (b : str -> bool),
  rel (nres (length ts + on nt) (length ts + on nt))
    (match nt with Some t => if b t then from_alias e t ts else Ok (e, nt, ts) | None => Ok (e, nt, ts) end)
    (match nt with Some t => if b t then from_alias e t ts else Ok (e, nt, ts) | None => Ok (e, nt, ts) end).
Proof.
  intros e nt ts b. destruct nt as [t|]; [|unfold nres; leaf]. destruct (b t); [|unfold nres; leaf].
  eapply rel_weak; [apply from_alias_rel|]. intros [[? ?] ?]. unfold nres. cbn [on]. lia.
Qed.
Lemma set_rel : forall P Q k n e nt ts, sim P Q k -> 2 * (length ts + on nt) + 1 <= k -> length ts + on nt <= n ->
  rel (fun x => let '(_, nt', r) := x in length r + on nt' <= length ts + on nt) (set_loop P n e nt ts) (set_loop Q n e nt ts).
Proof.
  intros P Q k n. induction n as [|n IH]; intros e nt ts S L LN; cbn [set_loop];
    destruct (olow_in nt SET_OPERATORS) eqn:D; try (unfold nres; leaf).
  - destruct nt; [cbn in LN; lia|discriminate].
  - destruct nt; [cbn [on] in *|discriminate].
    eapply rel_bind; [base|]. intros [[et n1] r1] [H1 H1']. cbn [on] in *. cbv zeta.
    eapply rel_bind; [base|]. intros [[et2 n2] r2] [H2 _].
    eapply (rel_bind (fun _ => True)).
    { destruct et2 as [|t2 r3]; [leaf|]. destruct (str_eqb (lower t2) "select"); cbn [length] in *; base. }
    intros right _.
    eapply rel_bind; [apply opt_alias_rel|]. intros [[e3 n3] r3] H3. unfold nres in H3.
    eapply rel_weak; [apply IH; auto; lia|]. intros [[? ?] ?]. lia.
Qed.
Lemma join_rel : forall P Q k n e nt ts, sim P Q k -> 2 * (length ts + on nt) + 1 <= k -> length ts + on nt <= n ->
  rel (fun _ => True) (join_loop P n e nt ts) (join_loop Q n e nt ts).
Proof.
  intros P Q k n. induction n as [|n IH]; intros e nt ts S L LN; cbn [join_loop];
    destruct (olow_in nt JOIN_VALUES) eqn:D; try leaf.
  - destruct nt; [cbn in LN; lia|discriminate].
  - destruct nt; [cbn [on] in *|discriminate].
    eapply rel_bind; [base|]. intros [[et n1] r1] [H1 H1']. cbn [on] in *. cbv zeta.
    eapply (rel_bind (fun x => let '(et2, n2, r2) := x in length et2 + on n2 + length r2 + 1 <= length ts + 1)).
    { destruct (mem _ _); [destruct n1; leaf|]. eapply rel_weak; [base|]. intros [[? ?] ?] [? _]. lia. }
    intros [[et2 n2] r2] H2.
    eapply rel_bind; [base|]. intros right _.
    eapply rel_bind; [base|]. intros [[et3 n3] r3] [H3 _]. cbn [on] in H3.
    eapply (rel_bind (fun _ => True)).
    { destruct (olow_is n2 "on"); [eapply rel_bind; [base|]; intros [[? ?] ?] _; leaf|].
      destruct (olow_is n2 "using"); [eapply rel_bind; [base|]; intros [[? ?] ?] _; leaf|]. leaf. }
    intros [on_ using_] _.
    eapply rel_bind; [apply opt_alias_rel|]. intros [[e4 n4] r4] H4. unfold nres in H4.
    apply IH; auto; lia.
Qed.
Lemma from_body_rel : forall P Q k ts, sim P Q k -> 2 * length ts + 1 <= k ->
  rel (fun _ => True) (from_body P ts) (from_body Q ts).
Proof.
  intros P Q k ts S L. unfold from_body.
  eapply rel_bind; [eapply from_item_rel; eauto|]. intros [[e n1] r1] H1.
  eapply rel_bind; [apply (opt_alias_rel e n1 r1 (fun t => negb (mem (lower t) JOIN_VALUES) && negb (mem (lower t) SET_OPERATORS)))|].
  intros [[e2 n2] r2] H2. unfold nres in H2.
  eapply rel_bind; [eapply set_rel; eauto; destruct n2; cbn [on] in *; lia|]. intros [[e3 n3] r3] H3.
  eapply rel_bind; [eapply join_rel; eauto; destruct n3; cbn [on] in *; lia|]. intros [[e4 n4] r4] _. leaf.
Qed.

(** ** The knot *)
Theorem parsers_sim : forall k n m, k <= n -> k <= m -> sim (parsers n) (parsers m) k.
Proof.
  induction k as [|k IH]; intros n m N M; [split; [|split; [|split]]; intros; lia|].
  destruct n as [|n]; [lia|]. destruct m as [|m]; [lia|].
  assert (S := IH n m ltac:(lia) ltac:(lia)). cbn [parsers].
  split; [|split; [|split]]; intros; cbn [p_expr p_select p_from p_stmt].
  - eapply expr_body_rel; eauto; lia.
  - eapply select_body_rel; eauto; lia.
  - eapply from_body_rel; eauto; lia.
  - eapply stmt_body_rel; eauto; lia.
Qed.
Theorem stmt_fuel : forall n eos ts, eok eos -> 2 * length ts + 2 <= n ->
  p_stmt (parsers n) eos ts = parse_stmt eos ts /\ parse_stmt eos ts <> Err OutOfFuel.
Proof.
  intros n eos ts E N. unfold parse_stmt, parse_fuel.
  destruct (stmt_rel (parsers (4 * length ts + 8)) (parsers n) (2 * length ts + 2) eos ts) as [A B]; auto; try lia.
  { apply parsers_sim; lia. }
  split; [auto|]. intros C. rewrite C in B. auto.
Qed.
