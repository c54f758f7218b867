(** Python's tokenizer on a text in which some strings are written differently. *)
From Verif Require Import PyStr Lib PyTokens PyTokenize SpecSource ProofSource ProofLex ProofLex2.
Local Open Scope str_scope.
Local Open Scope list_scope.

(** ** What is found stands at the start of the text *)
Definition unbroken (x : str) : Prop := x <> [] /\ has 10 x = false.
Fixpoint lineless (r : re) : Prop :=
  match r with
  | Cls p => p 10%N = false
  | Eps => True
  | Cat a b | Alt a b => lineless a /\ lineless b
  | Star a => lineless a
  end.
Definition consumed (s b : str) : Prop := exists a, s = a ++ b /\ has 10 a = false.
Lemma has_app : forall c a b, has c (a ++ b) = has c a || has c b.
Proof. intros. unfold has. apply existsb_app. Qed.
Lemma consumed_trans : forall a b c, consumed b a -> consumed c b -> consumed c a.
Proof. intros a b c (x & -> & X) (y & -> & Y). exists (y ++ x). rewrite app_assoc, has_app, X, Y. auto. Qed.
Lemma consumed_refl : forall s, consumed s s.
Proof. exists []. auto. Qed.
Lemma star_consumed : forall f, (forall s b, In b (f s) -> consumed s b) -> forall n s b, In b (star f n s) -> consumed s b.
Proof.
  intros f F. induction n as [|n IH]; intros s b; cbn [star].
  - intros [<-|[]]. apply consumed_refl.
  - rewrite in_app_iff, in_flat_map. intros [(x & X & I)|[<-|[]]]; [|apply consumed_refl].
    apply filter_In in X as [X _]. eapply consumed_trans; eauto.
Qed.
Lemma rematch_consumed : forall r, lineless r -> forall s b, In b (rematch r s) -> consumed s b.
Proof.
  induction r as [p| |r1 IH1 r2 IH2|r1 IH1 r2 IH2|r IH]; intros L s b; cbn [rematch]; cbn [lineless] in L.
  - destruct s as [|c s]; [intros []|]. destruct (p c) eqn:E; [|intros []]. intros [<-|[]]. exists [c]. split; auto. cbn [has existsb].
    destruct (N.eqb_spec 10 c); [subst; congruence|reflexivity].
  - intros [<-|[]]. apply consumed_refl.
  - destruct L. rewrite in_flat_map. intros (x & X & I). eapply consumed_trans; eauto.
  - destruct L. rewrite in_app_iff. intros [I|I]; auto.
  - apply star_consumed. auto.
Qed.
Lemma lineless_Number : lineless Number.
Proof. cbn. repeat split. Qed.
Lemma number_spec : forall s a b, number s = Some (a, b) -> s = a ++ b /\ unbroken a.
Proof.
  intros s a b H. unfold number in H. destruct (rematch Number s) as [|r l] eqn:E; [discriminate|]. injection H as <- <-.
  assert (I : In r (rematch Number s)) by (rewrite E; left; reflexivity).
  pose proof (rematch_progress _ _ _ (eq_refl : nullable Number = false) I) as P. apply (rematch_consumed _ lineless_Number) in I as (a & -> & X).
  replace (firstn (length (a ++ r) - length r) (a ++ r)) with a.
  - split; auto. split; auto. intros ->. cbn in P. lia.
  - rewrite app_length. replace (length a + length r - length r) with (length a) by lia. rewrite firstn_app, Nat.sub_diag, firstn_all. cbn. rewrite app_nil_r. reflexivity.
Qed.
Lemma operators_lineless : Forall unbroken OPERATORS.
Proof. unfold OPERATORS. repeat (constructor; [split; [discriminate|reflexivity]|]). constructor. Qed.
Lemma operator_spec : forall s a b, operator s = Some (a, b) -> s = a ++ b /\ unbroken a.
Proof.
  intros s a b H. unfold operator in H. destruct (find _ OPERATORS) as [o|] eqn:F; [|discriminate]. injection H as <- <-.
  apply find_some in F as [I F]. apply startswith_app in F as [r ->]. rewrite skipn_app_len. split; auto.
  exact (proj1 (Forall_forall _ _) operators_lineless o I).
Qed.
Lemma span_has : forall p, p 10%N = false -> forall s, has 10 (fst (span p s)) = false.
Proof.
  intros p P s. unfold has. pose proof (span_true p s) as T. induction T as [|c l E _ IH]; cbn [existsb]; auto. rewrite IH.
  destruct (N.eqb_spec 10 c); [subst; congruence|reflexivity].
Qed.
Definition ends_nl (s : str) : Prop := exists a, s = a ++ [10]%N.
Lemma ends_nl_app : forall x r, has 10 x = false -> ends_nl (x ++ r) -> ends_nl r.
Proof.
  intros x r X [a E]. destruct r as [|c r] using rev_ind.
  - rewrite app_nil_r in E. rewrite E, has_app in X. cbn in X. rewrite orb_true_r in X. discriminate.
  - clear IHr. rewrite app_assoc in E. apply app_inj_tail in E as [_ ->]. exists r. reflexivity.
Qed.
Lemma ends_nl_last : forall x c r, c <> 10%N -> ends_nl ((x ++ [c]) ++ r) -> ends_nl r.
Proof.
  intros x c r X [a E]. destruct r as [|d r] using rev_ind.
  - rewrite app_nil_r in E. apply app_inj_tail in E as [_ ->]. congruence.
  - clear IHr. rewrite app_assoc in E. apply app_inj_tail in E as [_ ->]. exists r. reflexivity.
Qed.
Lemma ends_nl_nil : ~ ends_nl [].
Proof. intros [a E]. destruct a; discriminate. Qed.

Section Word.
Variable word : N -> bool.
Notation pseudo := (pseudo word).
Notation name := (name word).
Lemma name_spec : forall s a b, name s = Some (a, b) -> s = a ++ b /\ unbroken a.
Proof.
  intros s a b H. unfold PyTokenize.name in H. pose proof (span_app (word_c word) s) as A. pose proof (span_has (word_c word) eq_refl s) as B.
  destruct (span (word_c word) s) as [x y]. cbn [fst snd] in *. destruct x; [discriminate|]. injection H as <- <-. split; auto. split; auto. discriminate.
Qed.

Lemma local_use : forall f s s', local f -> alike s s' ->
  match f s with
  | Some (a, b) => exists b', s = a ++ b /\ s' = a ++ b' /\ f s' = Some (a, b')
  | None => f s' = None
  end.
Proof.
  intros f s s' L (P & v & v' & -> & -> & N & T). specialize (L P v v' N T). destruct (f (P ++ v)) as [[a b]|]; [|exact L].
  destruct L as (P2 & -> & -> & L). exists (P2 ++ v'). rewrite <- !app_assoc. rewrite <- app_assoc in L. auto.
Qed.
Definition slash (s : str) : option (str * str) := match s with c :: r => if N.eqb c 92 then newline r else None | [] => None end.
Definition plain_found (s s' : str) (f f' : found) : Prop :=
  match f with
  | FTok k x r => exists r', k = TOther /\ unbroken x /\ s = x ++ r /\ s' = x ++ r' /\ f' = FTok k x r'
  | FNewline x r => exists r', (x = [10] \/ x = [13; 10])%N /\ s = x ++ r /\ s' = x ++ r' /\ f' = FNewline x r'
  | FNone => f' = FNone
  | _ => False
  end.
Lemma alike_tl : forall c s c' s', quote_c c = false -> alike (c :: s) (c' :: s') -> c = c' /\ alike s s'.
Proof.
  intros c s c' s' Q (P & v & v' & E & E' & N & T). destruct P as [|d P]; cbn [app] in *.
  - subst. destruct T as [[T _]|(q & u & u' & Q' & T & _)]; [discriminate|]. injection T as <- <-. congruence.
  - injection E as <- ->. injection E' as <- ->. split; auto. inversion N; subst. exists P, v, v'. auto.
Qed.
Lemma slash_local : forall s s', alike s s' ->
  match slash s with
  | Some (e, r) => exists r', (e = [10] \/ e = [13; 10])%N /\ s = 92%N :: e ++ r /\ s' = 92%N :: e ++ r' /\ slash s' = Some (e, r')
  | None => slash s' = None
  end.
Proof.
  intros s s' A. pose proof (alike_hd _ _ A) as H. destruct s as [|c s], s' as [|c' s']; try discriminate; [exact eq_refl|].
  cbn in H. injection H as <-. cbn [slash]. destruct (N.eqb_spec c 92) as [->|]; [|reflexivity].
  apply alike_tl in A as [_ A]; [|reflexivity]. pose proof (local_use newline s s' newline_local A) as X. destruct (newline s) as [[a b]|] eqn:NL; [|exact X].
  destruct X as (b' & -> & -> & X). apply newline_spec in NL as (Y & _). exists b'. auto.
Qed.
Lemma pseudo_plain : forall s s', slash s = None -> startswith [35%N] s = false -> opening s = None -> alike s s' ->
  plain_found s s' (pseudo s) (pseudo s').
Proof.
  intros s s' S H O A. unfold PyTokenize.pseudo. fold (slash s). fold (slash s'). pose proof (slash_local _ _ A) as S'. rewrite S in *. rewrite S'.
  replace (startswith [35%N] s') with false.
  2: { rewrite <- H. pose proof (alike_hd _ _ A) as X. destruct s, s'; try discriminate; auto. cbn in *. injection X as <-. destruct s, s'; reflexivity. }
  rewrite H, O, (opening_alike _ _ A O).
  pose proof (local_use number s s' number_local A) as L1. destruct (number s) as [[a b]|] eqn:E1.
  { destruct L1 as (b' & X & Y & ->). exists b'. apply number_spec in E1 as [_ U]. auto. }
  rewrite L1. pose proof (local_use newline s s' newline_local A) as L2. destruct (newline s) as [[a b]|] eqn:E2.
  { destruct L2 as (b' & X & Y & ->). exists b'. apply newline_spec in E2 as (U & _). auto. }
  rewrite L2. pose proof (local_use operator s s' operator_local A) as L3. destruct (operator s) as [[a b]|] eqn:E3.
  { destruct L3 as (b' & X & Y & ->). exists b'. apply operator_spec in E3 as [_ U]. auto. }
  rewrite L3. pose proof (local_use name s s' (name_local word) A) as L4. destruct (name s) as [[a b]|] eqn:E4.
  { destruct L4 as (b' & X & Y & ->). exists b'. apply name_spec in E4 as [_ U]. auto. }
  rewrite L4. reflexivity.
Qed.
Lemma span_hd : forall p s s', hd_error s = hd_error s' -> forall a, span p (a ++ s) = (a, s) -> span p (a ++ s') = (a, s').
Proof.
  intros p s s' H a. induction a as [|c a IH]; cbn [app span].
  - destruct s as [|d s], s' as [|d' s']; try discriminate; auto. cbn in H. injection H as <-. cbn [span]. destruct (p d); auto.
    destruct (span p s) as [x y]. intros E. injection E as E _. discriminate.
  - destruct (p c); [|discriminate]. destruct (span p (a ++ s)) as [x y]. intros E. injection E as -> ->. rewrite IH; auto.
Qed.
Lemma pseudo_comment : forall s, slash s = None -> startswith [35%N] s = true ->
  exists x r, unbroken x /\ s = x ++ r /\ forall r', hd_error r = hd_error r' -> pseudo (x ++ r') = FTok TComment x r'.
Proof.
  intros s S H. set (p := fun c => negb (N.eqb c 13 || N.eqb c 10)).
  pose proof (span_app p s) as A. pose proof (span_has p eq_refl s) as B. destruct (span p s) as [x r] eqn:E. cbn [fst snd] in *.
  destruct (startswith_app _ _ H) as [s0 ->]. destruct x as [|c x].
  - cbn in E. destruct (span p s0); discriminate.
  - cbn [app] in A. injection A as -> <-. exists (35%N :: x), r. split; [split; [discriminate|exact B]|]. split; [reflexivity|].
    intros r' R. unfold PyTokenize.pseudo. cbn [app N.eqb]. replace (N.eqb 35 92) with false by reflexivity.
    replace (startswith [35%N] (35%N :: x ++ r')) with true by (cbn; destruct (x ++ r'); reflexivity). fold p.
    change (35%N :: x ++ r') with ((35%N :: x) ++ r'). erewrite span_hd; [reflexivity|exact R|exact E].
Qed.
End Word.
