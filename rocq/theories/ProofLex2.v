(** What Python's tokenizer finds when the text that follows the token is another one. *)
From Verif Require Import PyStr Lib PyTokens PyTokenize ProofLex.
Local Open Scope str_scope.
Local Open Scope list_scope.

(** ** The beginning of a string *)
Lemma span_all : forall p P c r, Forall (fun c => p c = true) P -> p c = false -> span p (P ++ c :: r) = (P, c :: r).
Proof. induction P as [|d P IH]; intros c r F E; cbn [app span]; [rewrite E; reflexivity|]. inversion F; subst. rewrite H1, IH; auto. Qed.
Lemma prefix_length : forall p, mem (lower p) STR_PREFIXES = true -> length p <= 2.
Proof.
  intros p M. rewrite <- (map_length lower_c p). fold (lower p). unfold str in *. apply mem_In in M. cbn in M.
  repeat (destruct M as [<-|M]; [cbn; lia|]). destruct M.
Qed.
Lemma opening_of : forall p q r, noq p -> quote_c q = true -> mem (lower p) STR_PREFIXES = true -> opening (p ++ q :: r) = Some (p, q, r).
Proof.
  intros p q r N Q M. pose proof (prefix_length p M) as L. unfold opening.
  replace (firstn 3 (p ++ q :: r)) with (p ++ q :: firstn (2 - length p) r).
  - rewrite span_all; [|eapply Forall_impl; [|exact N]; intros c ->; reflexivity|rewrite Q; reflexivity].
    rewrite M. f_equal. f_equal. replace (S (length p)) with (length (p ++ [q])) by (rewrite app_length; cbn; lia).
    replace (p ++ q :: r) with ((p ++ [q]) ++ r) by (rewrite <- app_assoc; reflexivity). apply skipn_app_len.
  - rewrite firstn_app, (firstn_all2 p) by lia. f_equal. replace (3 - length p) with (S (2 - length p)) by lia. reflexivity.
Qed.
Lemma span_true : forall p s, Forall (fun c => p c = true) (fst (span p s)).
Proof. induction s as [|c s IH]; cbn; auto. destruct (p c) eqn:E; [|constructor]. destruct (span p s). cbn in *. auto. Qed.
Lemma span_false : forall p s c r, snd (span p s) = c :: r -> p c = false.
Proof. induction s as [|d s IH]; cbn; [discriminate|]. intros c r. destruct (p d) eqn:E; [|cbn; congruence]. destruct (span p s). cbn in *. apply IH. Qed.
Lemma opening_spec : forall s p q r, opening s = Some (p, q, r) ->
  s = p ++ q :: r /\ noq p /\ quote_c q = true /\ mem (lower p) STR_PREFIXES = true.
Proof.
  intros s p q r H. unfold opening in H. destruct (span _ (firstn 3 s)) as [a b] eqn:E. destruct b as [|c b]; [discriminate|].
  destruct (mem (lower a) STR_PREFIXES) eqn:M; [|discriminate]. injection H as -> -> H. change (skipn (S (length p)) s = r) in H.
  pose proof (span_app (fun c => negb (quote_c c)) (firstn 3 s)) as A. pose proof (span_true (fun c => negb (quote_c c)) (firstn 3 s)) as B.
  pose proof (span_false (fun c => negb (quote_c c)) (firstn 3 s) q b) as C. rewrite E in A, B, C. cbn [fst snd] in *.
  split; [|split; [|split]]; auto.
  - rewrite <- (firstn_skipn 3 s) at 1. rewrite <- A, <- app_assoc. f_equal. cbn [app]. f_equal. rewrite <- H.
    rewrite <- (firstn_skipn 3 s) at 2. rewrite <- A.
    replace (S (length p)) with (length (p ++ [q])) by (rewrite app_length; cbn; lia).
    replace ((p ++ q :: b) ++ skipn 3 s) with ((p ++ [q]) ++ b ++ skipn 3 s) by (rewrite <- !app_assoc; reflexivity). symmetry. apply skipn_app_len.
  - eapply Forall_impl; [|exact B]. intros c X. apply negb_true_iff. exact X.
  - specialize (C eq_refl). apply negb_false_iff. exact C.
Qed.
Lemma opening_alike : forall s s', alike s s' -> opening s = None -> opening s' = None.
Proof.
  intros s s' A H. destruct (opening s') as [[[p q] r]|] eqn:E; [|reflexivity]. exfalso.
  apply opening_spec in E as (-> & N & Q & M). destruct A as (P & v & v' & -> & A2 & NP & T).
  assert (X : P = p /\ exists u', v' = q :: u').
  { clear -N NP Q T A2. revert P NP A2. induction p as [|c p IH]; intros P NP A2; destruct P as [|d P]; cbn [app] in A2.
    - eauto.
    - injection A2 as E _. subst. inversion NP; subst. congruence.
    - exfalso. assert (NC : quote_c c = false) by (inversion N; assumption). rewrite <- A2 in T. destruct T as [[_ T]|(q' & u & u' & E & _ & T)]; [discriminate|]. injection T as -> _. congruence.
    - injection A2 as -> A2. inversion N; inversion NP; subst. destruct (IH H2 P H6 A2) as [-> X]. auto. }
  destruct X as [-> [u' ->]]. destruct T as [[_ T]|(q' & u & u2 & E & -> & T)]; [discriminate|]. injection T as <- <-.
  rewrite opening_of in H; auto. discriminate.
Qed.

(** ** The rest of a string *)
Lemma put_Some : forall a o x r, put a o = Some (x, r) -> exists y, o = Some (y, r) /\ x = a ++ y.
Proof. intros a [[b c]|] x r H; [|discriminate]. injection H as <- <-. eauto. Qed.
Lemma newline_spec : forall s e r, newline s = Some (e, r) -> (e = [10]%N \/ e = [13; 10]%N) /\ s = e ++ r /\ forall r', newline (e ++ r') = Some (e, r').
Proof.
  intros s e r H. unfold newline in H. destruct s as [|c s]; [discriminate|]. destruct (N.eqb_spec c 10) as [->|].
  - injection H as <- <-. auto.
  - destruct (N.eqb_spec c 13) as [->|]; [|discriminate]. destruct s as [|d s]; [discriminate|]. destruct (N.eqb_spec d 10) as [->|]; [|discriminate].
    injection H as <- <-. auto.
Qed.
Lemma one_line_app : forall q, N.eqb q 13 = false -> N.eqb q 10 = false -> N.eqb q 92 = false -> forall n s a b, length s <= n ->
  one_line q s = Some (a, b) -> a <> [] /\ s = a ++ b /\ forall b', one_line q (a ++ b') = Some (a, b').
Proof.
  intros q Q1 Q2 Q3. induction n as [|n IH]; intros s a b L H; (destruct s as [|c r]; [discriminate|]); [cbn in L; lia|]. cbn [one_line] in H.
  destruct (N.eqb c q) eqn:E.
  - injection H as <- <-. split; [discriminate|]. split; auto. intros b'. cbn [app one_line]. rewrite E. reflexivity.
  - destruct (N.eqb c 10) eqn:E10; [discriminate|]. destruct (N.eqb c 92) eqn:E92.
    + destruct (newline r) as [[e r']|] eqn:NL.
      * injection H as <- <-. apply newline_spec in NL as (_ & -> & X). split; [discriminate|]. split; auto. intros b'. cbn [app one_line].
        rewrite E, E10, E92, X. reflexivity.
      * destruct r as [|d r]; [discriminate|]. apply put_Some in H as (y & H & ->). cbn in L. destruct (IH r y b) as (NE & -> & X); [lia|exact H|].
        split; [discriminate|]. split; auto. intros b'. cbn [app one_line]. rewrite E, E10, E92.
        assert (NL' : newline (d :: y ++ b') = None).
        { destruct y as [|y0 y]; [congruence|]. cbn [app newline] in *. destruct (N.eqb d 10); [discriminate|]. destruct (N.eqb d 13); [|reflexivity]. destruct (N.eqb y0 10); [discriminate|reflexivity]. }
        rewrite NL', X. reflexivity.
    + apply put_Some in H as (y & H & ->). cbn in L. destruct (IH r y b) as (NE & -> & X); [lia|exact H|].
      split; [discriminate|]. split; auto. intros b'. cbn [app one_line]. rewrite E, E10, E92, X. reflexivity.
Qed.
Lemma tail1_app : forall q n s a b, length s <= n ->
  tail1 q s = Some (a, b) -> (exists a0, a = a0 ++ [q]) /\ s = a ++ b /\ forall b', tail1 q (a ++ b') = Some (a, b').
Proof.
  intros q. induction n as [|n IH]; intros s a b L H; (destruct s as [|c r]; [discriminate|]); [cbn in L; lia|]. cbn [tail1] in H.
  destruct (N.eqb c q) eqn:E.
  - injection H as <- <-. split; [exists []; apply N.eqb_eq in E; subst; reflexivity|]. split; auto. intros b'. cbn [app tail1]. rewrite E. reflexivity.
  - destruct (N.eqb c 92) eqn:E92.
    + destruct r as [|d r]; [discriminate|]. destruct (N.eqb d 10) eqn:E10; [discriminate|].
      apply put_Some in H as (y & H & ->). cbn in L. destruct (IH r y b) as ([a0 ->] & -> & X); [lia|exact H|].
      split; [exists (c :: d :: a0); reflexivity|]. split; auto. intros b'. cbn [app tail1]. rewrite E, E92, E10, X. reflexivity.
    + apply put_Some in H as (y & H & ->). cbn in L. destruct (IH r y b) as ([a0 ->] & -> & X); [lia|exact H|].
      split; [exists (c :: a0); reflexivity|]. split; auto. intros b'. cbn [app tail1]. rewrite E, E92, X. reflexivity.
Qed.
Lemma tail3_app : forall far q n s a b, length s <= n ->
  tail3 far q s = Some (a, b) -> (exists a0, a = a0 ++ [q; q; q]) /\ s = a ++ b /\ forall b', tail3 far q (a ++ b') = Some (a, b').
Proof.
  intros far q. induction n as [|n IH]; intros s a b L H; (destruct s as [|c r]; [discriminate|]); [cbn in L; lia|]. cbn [tail3] in H.
  destruct (N.eqb c q && startswith [q; q] r) eqn:E.
  - injection H as <- <-. apply andb_true_iff in E as [E1 E2]. apply N.eqb_eq in E1. apply startswith_app in E2 as [r' ->]. subst.
    split; [exists []; reflexivity|]. cbn [app skipn]. split; auto. intros b'. cbn. rewrite !N.eqb_refl. destruct b'; reflexivity.
  - assert (P : forall (y b' : str), (exists a0, y = a0 ++ [q; q; q]) -> startswith [q; q] (y ++ b') = startswith [q; q] (y ++ b)).
    { intros y b' [a0 ->]. destruct a0 as [|x0 [|x1 a0]]; cbn; rewrite ?N.eqb_refl; cbn; try reflexivity; destruct b, b'; reflexivity. }
    destruct (N.eqb c 92) eqn:E92.
    + destruct r as [|d r]; [discriminate|]. destruct (negb far && N.eqb d 10) eqn:E10; [discriminate|].
      apply put_Some in H as (y & H & ->). cbn in L. destruct (IH r y b) as ([a0 EA] & -> & X); [lia|exact H|].
      split; [exists (c :: d :: a0); rewrite EA; reflexivity|]. split; auto. intros b'. cbn [app tail3].
      replace (N.eqb c q && startswith [q; q] (d :: y ++ b')) with false.
      * rewrite E92, E10, X. reflexivity.
      * rewrite <- E. f_equal. rewrite EA. destruct a0 as [|x0 a0]; cbn; f_equal; rewrite ?N.eqb_refl; destruct b, b'; reflexivity.
    + apply put_Some in H as (y & H & ->). cbn in L. destruct (IH r y b) as (EA & -> & X); [lia|exact H|].
      split; [destruct EA as [a0 ->]; exists (c :: a0); reflexivity|]. split; auto. intros b'. cbn [app tail3].
      rewrite (P y b' EA), E, E92, X. reflexivity.
Qed.
