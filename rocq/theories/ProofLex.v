(** The patterns of Python's tokenizer: what a match depends on. *)
From Verif Require Import PyStr Lib PyTokens PyTokenize.
Local Open Scope str_scope.
Local Open Scope list_scope.

Definition noq (s : str) : Prop := Forall (fun c => quote_c c = false) s.
(** Two texts that are alike up to their first quote *)
Definition tails (v v' : str) : Prop := (v = [] /\ v' = []) \/ exists q u u', quote_c q = true /\ v = q :: u /\ v' = q :: u'.
Definition alike (s s' : str) : Prop := exists P v v', s = P ++ v /\ s' = P ++ v' /\ noq P /\ tails v v'.

Lemma tails_sym : forall v v', tails v v' -> tails v' v.
Proof. intros v v' [[-> ->]|(q & u & u' & Q & -> & ->)]; [left; auto|right; exists q, u', u; auto]. Qed.
Lemma alike_sym : forall s s', alike s s' -> alike s' s.
Proof. intros s s' (P & v & v' & A & B & C & D). exists P, v', v. auto using tails_sym. Qed.
Lemma quote_split : forall s, noq s \/ exists P q u, s = P ++ q :: u /\ noq P /\ quote_c q = true.
Proof.
  induction s as [|c s IH]; [left; constructor|]. destruct (quote_c c) eqn:Q.
  - right. exists [], c, s. repeat split; auto. constructor.
  - destruct IH as [IH|(P & q & u & -> & N & Q')]; [left; constructor; auto|right; exists (c :: P), q, u; repeat split; auto; constructor; auto].
Qed.
Lemma alike_app : forall x s s', alike s s' -> alike (x ++ s) (x ++ s').
Proof.
  intros x s s' (P & v & v' & -> & -> & N & T). destruct (quote_split x) as [X|(Q & q & u & -> & X & E)].
  - exists (x ++ P), v, v'. rewrite !app_assoc. repeat split; auto. apply Forall_app. auto.
  - exists Q, (q :: u ++ P ++ v), (q :: u ++ P ++ v'). rewrite <- !app_assoc. repeat split; auto. right. exists q. eauto.
Qed.
Lemma alike_quote : forall P q u u', noq P -> quote_c q = true -> alike (P ++ q :: u) (P ++ q :: u').
Proof. intros. exists P, (q :: u), (q :: u'). repeat split; auto. right. exists q. eauto. Qed.
Lemma alike_nil : alike [] [].
Proof. exists [], [], []. repeat split; auto; [constructor|left; auto]. Qed.
Lemma alike_hd : forall s s', alike s s' -> hd_error s = hd_error s'.
Proof. intros s s' (P & v & v' & -> & -> & N & T). destruct P; [|reflexivity]. destruct T as [[-> ->]|(q & u & u' & _ & -> & ->)]; reflexivity. Qed.

(** ** Regular expressions without quotes *)
Fixpoint quoteless (r : re) : Prop :=
  match r with
  | Cls p => forall c, quote_c c = true -> p c = false
  | Eps => True
  | Cat a b | Alt a b => quoteless a /\ quoteless b
  | Star a => quoteless a
  end.
Fixpoint nullable (r : re) : bool :=
  match r with
  | Cls _ => false
  | Eps | Star _ => true
  | Cat a b => nullable a && nullable b
  | Alt a b => nullable a || nullable b
  end.
(** [suffix b s]: [b] is the end of [s] *)
Definition suffix (b s : str) : Prop := exists a, s = a ++ b.
Lemma suffix_trans : forall a b c, suffix a b -> suffix b c -> suffix a c.
Proof. intros a b c [x ->] [y ->]. exists (y ++ x). apply app_assoc. Qed.
Lemma star_suffix : forall f, (forall s b, In b (f s) -> suffix b s) -> forall n s b, In b (star f n s) -> suffix b s.
Proof.
  intros f F. induction n as [|n IH]; intros s b; cbn [star].
  - intros [<-|[]]. exists []. reflexivity.
  - rewrite in_app_iff, in_flat_map. intros [(x & X & I)|[<-|[]]]; [|exists []; reflexivity].
    apply filter_In in X as [X _]. eapply suffix_trans; eauto.
Qed.
Lemma rematch_suffix : forall r s b, In b (rematch r s) -> suffix b s.
Proof.
  induction r as [p| |r1 IH1 r2 IH2|r1 IH1 r2 IH2|r IH]; intros s b; cbn [rematch].
  - destruct s as [|c s]; [intros []|]. destruct (p c); [|intros []]. intros [<-|[]]. exists [c]. reflexivity.
  - intros [<-|[]]. exists []. reflexivity.
  - rewrite in_flat_map. intros (x & X & I). eapply suffix_trans; eauto.
  - rewrite in_app_iff. intros [I|I]; auto.
  - apply star_suffix. exact IH.
Qed.
Lemma suffix_le : forall a b, suffix a b -> length a <= length b.
Proof. intros a b [x ->]. rewrite app_length. lia. Qed.
Lemma rematch_progress : forall r s b, nullable r = false -> In b (rematch r s) -> length b < length s.
Proof.
  induction r as [p| |r1 IH1 r2 IH2|r1 IH1 r2 IH2|r IH]; intros s b N; cbn [rematch]; cbn [nullable] in N; try discriminate.
  - destruct s as [|c s]; [intros []|]. destruct (p c); [|intros []]. intros [<-|[]]. cbn. lia.
  - rewrite in_flat_map. intros (x & X & I). apply andb_false_iff in N as [N|N].
    + pose proof (IH1 _ _ N X). pose proof (suffix_le _ _ (rematch_suffix _ _ _ I)). lia.
    + pose proof (IH2 _ _ N I). pose proof (suffix_le _ _ (rematch_suffix _ _ _ X)). lia.
  - apply orb_false_iff in N as [N1 N2]. rewrite in_app_iff. intros [I|I]; eauto.
Qed.
(** [same_rems f]: the remainders do not depend on what follows the first quote *)
Definition same_rems (f : str -> list str) : Prop :=
  forall P v v', noq P -> tails v v' -> exists L, Forall (fun b => suffix b P) L
    /\ f (P ++ v) = map (fun b => b ++ v) L /\ f (P ++ v') = map (fun b => b ++ v') L.
Lemma noq_suffix : forall b P, suffix b P -> noq P -> noq b.
Proof. intros b P [a ->] N. apply Forall_app in N. tauto. Qed.
Lemma rems_flat : forall f g, same_rems g -> forall P v v' L, noq P -> tails v v' ->
  Forall (fun b => suffix b P) L -> f = L ->
  exists L2, Forall (fun b => suffix b P) L2 /\ flat_map g (map (fun b => b ++ v) f) = map (fun b => b ++ v) L2
    /\ flat_map g (map (fun b => b ++ v') f) = map (fun b => b ++ v') L2.
Proof.
  intros f g G P v v' L N T F ->. induction L as [|b L IH]; cbn [map flat_map].
  - exists []. split; [constructor|split; reflexivity].
  - inversion F as [|? ? Fb FL]; subst. destruct (IH FL) as (L2 & A & B & C).
    destruct (G b v v' (noq_suffix _ _ Fb N) T) as (L1 & D & X & Y). exists (L1 ++ L2).
    rewrite B, C, X, Y, !map_app. split; auto. apply Forall_app. split; auto.
    eapply Forall_impl; [|exact D]. intros x Hx. exact (suffix_trans _ _ _ Hx Fb).
Qed.
Lemma filter_map {A B} (f : A -> B) (p : B -> bool) (q : A -> bool) : forall L, (forall x, In x L -> p (f x) = q x) ->
  filter p (map f L) = map f (filter q L).
Proof. induction L as [|x L IH]; intros H; cbn; auto. rewrite H by (left; reflexivity). rewrite IH by (intros; apply H; right; auto). destruct (q x); reflexivity. Qed.
Lemma rems_star : forall f, same_rems f -> (forall v v', tails v v' -> Forall (fun b => length b >= length v) (f v)) ->
  forall k P, length P <= k -> forall n n' v v', length P <= n -> length P <= n' -> noq P -> tails v v' ->
  exists L, Forall (fun b => suffix b P) L
    /\ star f n (P ++ v) = map (fun b => b ++ v) L /\ star f n' (P ++ v') = map (fun b => b ++ v') L.
Proof.
  intros f F E. 
  assert (Base : forall n v v', tails v v' -> star f n v = [v]).
  { intros n v v' T. destruct n as [|n]; [reflexivity|]. cbn [star]. 
    replace (filter (fun r => length r <? length v) (f v)) with (@nil str); [reflexivity|].
    specialize (E v v' T). induction (f v) as [|b l IH]; [reflexivity|]. inversion E; subst. cbn [filter].
    replace (length b <? length v) with false by (symmetry; apply Nat.ltb_ge; lia). auto. }
  induction k as [|k IH]; intros P LP n n' v v' Ln Ln' N T.
  - destruct P; [|cbn in LP; lia]. exists [[]]. cbn [app map]. rewrite (Base _ v v' T), (Base _ v' v (tails_sym _ _ T)). repeat split; auto. constructor; auto. exists []. reflexivity.
  - destruct P as [|c P].
    { exists [[]]. cbn [app map]. rewrite (Base _ v v' T), (Base _ v' v (tails_sym _ _ T)). repeat split; auto. constructor; auto. exists []. reflexivity. }
    destruct n as [|n]; [cbn in Ln; lia|]. destruct n' as [|n']; [cbn in Ln'; lia|]. cbn [star].
    destruct (F (c :: P) v v' N T) as (L & S & X & Y). rewrite X, Y.
    rewrite (filter_map (fun b => b ++ v) _ (fun b => length b <? length (c :: P)));
      [|intros x _; apply eq_true_iff_eq; rewrite !Nat.ltb_lt, !app_length; lia].
    rewrite (filter_map (fun b => b ++ v') _ (fun b => length b <? length (c :: P)));
      [|intros x _; apply eq_true_iff_eq; rewrite !Nat.ltb_lt, !app_length; lia].
    set (L' := filter (fun b => length b <? length (c :: P)) L).
    assert (S' : Forall (fun b => suffix b (c :: P) /\ length b <= length P) L').
    { apply Forall_forall. intros b I. apply filter_In in I as [I1 I2]. apply Nat.ltb_lt in I2. rewrite Forall_forall in S. split; auto. cbn in *. lia. }
    assert (Z : exists L2, Forall (fun b => suffix b (c :: P)) L2
       /\ flat_map (star f n) (map (fun b => b ++ v) L') = map (fun b => b ++ v) L2
       /\ flat_map (star f n') (map (fun b => b ++ v') L') = map (fun b => b ++ v') L2).
    { clearbody L'. induction L' as [|b L' IHL]; [exists []; split; [constructor|split; reflexivity]|]. inversion S' as [|? ? [Sb Lb] SL]; subst.
      destruct (IHL SL) as (L2 & A & B & C).
      destruct (IH b ltac:(cbn in LP; lia) n n' v v') as (L1 & D & X1 & Y1); try (cbn in *; lia); auto; [eapply noq_suffix; eauto|].
      exists (L1 ++ L2). cbn [map flat_map]. rewrite B, C, X1, Y1, !map_app. split; auto. apply Forall_app. split; auto.
      eapply Forall_impl; [|exact D]. intros x Hx. exact (suffix_trans _ _ _ Hx Sb). }
    destruct Z as (L2 & A & B & C). exists (L2 ++ [c :: P]). rewrite B, C, !map_app. cbn [map app]. repeat split; auto.
    apply Forall_app. split; auto. constructor; auto. exists []. reflexivity.
Qed.
Lemma suffix_nil : forall b, suffix b [] -> b = [].
Proof. intros b [a E]. symmetry in E. apply app_eq_nil in E. tauto. Qed.
Lemma rematch_rems : forall r, quoteless r -> same_rems (rematch r).
Proof.
  induction r as [p| |r1 IH1 r2 IH2|r1 IH1 r2 IH2|r IH]; intros Q P v v' N T; cbn [rematch]; cbn [quoteless] in Q.
  - destruct P as [|c P]; cbn [app].
    + exists []. split; [constructor|]. destruct T as [[-> ->]|(q & u & u' & E & -> & ->)]; [split; reflexivity|]. rewrite (Q q E). split; reflexivity.
    + destruct (p c); [exists [P]|exists []]; (split; [|split; reflexivity]); repeat constructor. exists [c]. reflexivity.
  - exists [P]. split; [|split; reflexivity]. repeat constructor. exists []. reflexivity.
  - destruct (IH1 (proj1 Q) P v v' N T) as (L & A & B & C). rewrite B, C.
    apply (rems_flat L (rematch r2) (IH2 (proj2 Q)) P v v' L); auto.
  - destruct (IH1 (proj1 Q) P v v' N T) as (L1 & A & B & C). destruct (IH2 (proj2 Q) P v v' N T) as (L2 & A2 & B2 & C2).
    exists (L1 ++ L2). rewrite B, C, B2, C2, !map_app. split; [apply Forall_app; auto|split; reflexivity].
  - apply (rems_star (rematch r) (IH Q)) with (k := length P); auto; try (rewrite app_length; lia).
    intros w w' Tw. destruct (IH Q [] w w' (Forall_nil _) Tw) as (L & A & B & _). cbn [app] in B. rewrite B.
    clear B. induction A as [|b L S A IHA]; cbn [map]; constructor; auto. rewrite app_length. lia.
Qed.

(** ** Patterns without quotes *)
Definition local (f : str -> option (str * str)) : Prop :=
  forall P v v', noq P -> tails v v' ->
    match f (P ++ v) with
    | Some (a, b) => exists P2, P = a ++ P2 /\ b = P2 ++ v /\ f (P ++ v') = Some (a, P2 ++ v')
    | None => f (P ++ v') = None
    end.
Lemma firstn_less : forall (a b v : str), firstn (length ((a ++ b) ++ v) - length (b ++ v)) ((a ++ b) ++ v) = a.
Proof.
  intros. rewrite !app_length. replace (length a + length b + length v - (length b + length v)) with (length a) by lia.
  rewrite <- app_assoc, firstn_app, Nat.sub_diag, firstn_all. cbn. apply app_nil_r.
Qed.
Lemma quoteless_Number : quoteless Number.
Proof.
  cbn. unfold quote_c, is_digit_c, hex_c. repeat split; intros c H; cbn [existsb] in *; rewrite ?orb_false_r in *;
    apply orb_true_iff in H as [H|H]; apply N.eqb_eq in H; subst; reflexivity.
Qed.
Lemma number_local : local number.
Proof.
  intros P v v' N T. unfold number. destruct (rematch_rems Number quoteless_Number P v v' N T) as (L & A & -> & ->).
  destruct L as [|b L]; cbn [map]; [reflexivity|]. inversion A as [|? ? [a ->] _]; subst.
  exists b. rewrite !firstn_less. auto.
Qed.
Lemma startswith_local : forall o P v, Forall (fun c => quote_c c = false) o -> (v = [] \/ exists q u, quote_c q = true /\ v = q :: u) ->
  startswith o (P ++ v) = startswith o P.
Proof.
  induction o as [|c o IH]; intros P v F V; [destruct P, v; reflexivity|]. inversion F; subst. destruct P as [|d P]; cbn [app startswith].
  - destruct V as [->|(q & u & Q & ->)]; [reflexivity|]. cbn [startswith]. destruct (N.eqb_spec c q); [congruence|reflexivity].
  - rewrite IH; auto.
Qed.
Lemma tails_v : forall v v', tails v v' -> v = [] \/ exists q u, quote_c q = true /\ v = q :: u.
Proof. intros v v' [[-> _]|(q & u & _ & Q & -> & _)]; [auto|right; eauto]. Qed.
Lemma startswith_app : forall o s, startswith o s = true -> exists r, s = o ++ r.
Proof.
  induction o as [|c o IH]; intros s H; [exists s; reflexivity|]. destruct s as [|d s]; [discriminate|]. cbn in H.
  apply andb_true_iff in H as [H1 H2]. apply N.eqb_eq in H1. subst. destruct (IH s H2) as [r ->]. exists r. reflexivity.
Qed.
Lemma operators_quoteless : Forall (Forall (fun c => quote_c c = false)) OPERATORS.
Proof. unfold OPERATORS. repeat constructor. Qed.
Lemma find_ext {A} (f g : A -> bool) : forall l, Forall (fun x => f x = g x) l -> find f l = find g l.
Proof. induction 1 as [|x l E _ IH]; cbn; auto. rewrite E, IH. reflexivity. Qed.
Lemma skipn_app_len {A} : forall (a b : list A), skipn (length a) (a ++ b) = b.
Proof. intros. rewrite skipn_app, skipn_all, Nat.sub_diag. reflexivity. Qed.
Lemma operator_local : local operator.
Proof.
  intros P v v' N T. unfold operator.
  assert (X : forall w w', tails w w' -> find (fun o => startswith o (P ++ w)) OPERATORS = find (fun o => startswith o P) OPERATORS).
  { intros w w' W. apply find_ext. eapply Forall_impl; [|exact operators_quoteless]. intros o F. apply startswith_local; auto. eapply tails_v; eauto. }
  rewrite (X v v' T), (X v' v (tails_sym _ _ T)). destruct (find _ OPERATORS) as [o|] eqn:F; [|reflexivity].
  apply find_some in F as [_ F]. apply startswith_app in F as [r ->]. exists r. rewrite <- !app_assoc, !skipn_app_len. auto.
Qed.
Lemma span_app : forall p s, fst (span p s) ++ snd (span p s) = s.
Proof. induction s as [|c s IH]; cbn; auto. destruct (p c); auto. destruct (span p s). cbn in *. congruence. Qed.
Lemma span_local : forall p, (forall c, quote_c c = true -> p c = false) -> forall P v v', noq P -> tails v v' ->
  exists P2, P = fst (span p (P ++ v)) ++ P2 /\ snd (span p (P ++ v)) = P2 ++ v /\ span p (P ++ v') = (fst (span p (P ++ v)), P2 ++ v').
Proof.
  intros p Q. induction P as [|c P IH]; intros v v' N T; cbn [app span].
  - exists []. destruct T as [[-> ->]|(q & u & u' & E & -> & ->)]; [auto|]. cbn [span]. rewrite (Q q E). auto.
  - destruct (p c); [|exists (c :: P); auto]. inversion N; subst. destruct (IH v v') as (P2 & A & B & C); auto.
    exists P2. rewrite C. destruct (span p (P ++ v)) as [a b]. cbn [fst snd] in *. split; [cbn; congruence|auto].
Qed.
Section Word.
Variable word : N -> bool.
Lemma word_quote : forall c, quote_c c = true -> word_c word c = false.
Proof.
  intros c H. unfold quote_c in H. cbn [existsb] in H. rewrite orb_false_r in H. apply orb_true_iff in H as [H|H]; apply N.eqb_eq in H; subst; reflexivity.
Qed.
Lemma name_local : local (name word).
Proof.
  intros P v v' N T. unfold name. destruct (span_local (word_c word) word_quote P v v' N T) as (P2 & A & B & C). rewrite C.
  destruct (span (word_c word) (P ++ v)) as [a b]. cbn [fst snd] in *. destruct a; [reflexivity|]. exists P2. subst. auto.
Qed.
End Word.
Lemma newline_local : local newline.
Proof.
  intros P v v' N T. destruct P as [|c P]; cbn [app].
  - destruct T as [[-> ->]|(q & u & u' & E & -> & ->)]; [reflexivity|]. unfold quote_c in E. cbn [existsb] in E. rewrite orb_false_r in E.
    apply orb_true_iff in E as [E|E]; apply N.eqb_eq in E; subst; reflexivity.
  - unfold newline. destruct (N.eqb_spec c 10) as [->|E1]; [exists P; auto|]. destruct (N.eqb_spec c 13) as [->|E2]; [|reflexivity].
    destruct P as [|d P]; cbn [app].
    + destruct T as [[-> ->]|(q & u & u' & E & -> & ->)]; [reflexivity|]. unfold quote_c in E. cbn [existsb] in E. rewrite orb_false_r in E.
      apply orb_true_iff in E as [E|E]; apply N.eqb_eq in E; subst; reflexivity.
    + destruct (N.eqb_spec d 10) as [->|E3]; [exists P; auto|reflexivity].
Qed.
