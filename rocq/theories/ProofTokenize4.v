(** The steps of the tokenizer suffice; the text with the new strings is determined by the tokens. *)
From Verif Require Import PyStr Lib PyTokens PyTokenize SpecSource ProofSource ProofLex ProofLex2 ProofTokenize ProofTokenize2 ProofTokenize3.
Local Open Scope str_scope.
Local Open Scope list_scope.

Definition le_rest (o : option (str * str)) (n : nat) : Prop := match o with Some (_, r) => length r < n | None => True end.
Lemma app_lt : forall (a b s : str), s = a ++ b -> a <> [] -> length b < length s.
Proof. intros a b s -> NE. rewrite app_length. destruct a; [congruence|cbn; lia]. Qed.
Lemma app_le : forall (a b s : str), s = a ++ b -> length b <= length s.
Proof. intros a b s ->. rewrite app_length. lia. Qed.
Lemma cont_le : forall q n acc s, match cont_lines n (tail1 q) acc s with Some (Closed _ r) | Some (Broken _ r) => length r <= length s | None => True end.
Proof.
  intros q. induction n as [|n IH]; intros acc s; cbn [cont_lines]; auto. destruct (cut_line s) as [line rest] eqn:C. apply cut_line_spec in C as [-> _].
  destruct line as [|c line]; auto. destruct (tail1 q (c :: line)) as [[a b]|] eqn:T.
  - destruct (tail1_app q _ _ _ _ (le_n _) T) as (_ & -> & _). rewrite !app_length. lia.
  - destruct (endswith _ _ || endswith _ _); [|rewrite app_length; lia]. specialize (IH (acc ++ c :: line) rest).
    destruct (cont_lines n (tail1 q) (acc ++ c :: line) rest) as [[? r|? r]|]; auto; rewrite app_length; lia.
Qed.
Lemma cont3_le : forall far q n acc s, match cont_lines n (tail3 far q) acc s with Some (Closed _ r) | Some (Broken _ r) => length r <= length s | None => True end.
Proof.
  intros far q. induction n as [|n IH]; intros acc s; cbn [cont_lines]; auto. destruct (cut_line s) as [line rest] eqn:C. apply cut_line_spec in C as [-> _].
  destruct line as [|c line]; auto. destruct (tail3 far q (c :: line)) as [[a b]|] eqn:T.
  - destruct (tail3_app far q _ _ _ _ (le_n _) T) as (_ & -> & _). rewrite !app_length. lia.
  - destruct (endswith _ _ || endswith _ _); [|rewrite app_length; lia]. specialize (IH (acc ++ c :: line) rest).
    destruct (cont_lines n (tail3 far q) (acc ++ c :: line) rest) as [[? r|? r]|]; auto; rewrite app_length; lia.
Qed.

Section Word.
Variable word : N -> bool.
Notation run := (run word).
Notation step := (step word).
Notation pseudo := (pseudo word).
Lemma pseudo_lt : forall s, s <> [] -> match pseudo s with
  | FCont r | FTok _ _ r | FNewline _ r | FTriple _ _ r | FStr _ _ _ r => length r < length s
  | FNone => True end.
Proof.
  intros s NE. destruct (slash s) as [[e r]|] eqn:SL.
  - unfold PyTokenize.pseudo. fold (slash s). rewrite SL. unfold slash in SL. destruct s as [|c s]; [discriminate|]. destruct (N.eqb c 92); [|discriminate].
    apply newline_spec in SL as (_ & -> & _). cbn. rewrite app_length. lia.
  - destruct (startswith [35%N] s) eqn:S35.
    + destruct (pseudo_comment word s SL S35) as (x & r & [NX _] & -> & E). rewrite E by reflexivity. rewrite app_length. destruct x; [congruence|cbn; lia].
    + destruct (opening s) as [[[p q] y]|] eqn:OP.
      * rewrite (pseudo_opening word _ _ _ _ OP). destruct (opening_spec _ _ _ _ OP) as (ES & _ & Q & _). destruct (quote_10 q Q) as (Q10 & Q13 & Q92 & _).
        destruct (startswith [q; q] y) eqn:SW.
        -- apply startswith_app in SW as [y0 ->]. rewrite ES. cbn [app skipn]. rewrite app_length. cbn. lia.
        -- destruct (one_line q y) as [[a b]|] eqn:OL.
           ++ destruct (one_line_app q (proj2 (N.eqb_neq _ _) Q13) (proj2 (N.eqb_neq _ _) Q10) (proj2 (N.eqb_neq _ _) Q92) _ _ _ _ (le_n _) OL) as (_ & -> & _).
              rewrite ES, app_length. cbn. rewrite app_length. lia.
           ++ destruct (name word s) as [[a b]|] eqn:NM; auto. apply name_spec in NM as (E & NA & _). eapply app_lt; eauto.
      * assert (A : alike s s) by (destruct (quote_split s) as [X|(P & q & u & -> & X & Y)]; [exists s, [], []; rewrite app_nil_r; repeat split; auto; left; auto|apply alike_quote; assumption]).
        pose proof (pseudo_plain word s s SL S35 OP A) as P. destruct (pseudo s); cbn [plain_found] in P; auto; try contradiction.
        -- destruct P as (_ & _ & [U _] & E & _). eapply app_lt; eauto.
        -- destruct P as (_ & U & E & _). eapply app_lt; [exact E|]. destruct U as [->| ->]; discriminate.
Qed.
Definition measure (m : mode) (s : str) : nat :=
  match m with AtLine _ => 3 * length s + 1 | Inline => 3 * length s + match s with [] => 2 | _ => 0 end end.
Lemma measure_inline : forall r n, length r < n -> measure Inline r < 3 * n.
Proof. intros r n H. cbn [measure]. destruct r; cbn in *; lia. Qed.
Lemma step_measure : forall w l m s ts l1 m1 s1, step w l m s = More ts l1 m1 s1 -> measure m1 s1 < measure m s.
Proof.
  intros w l m s ts l1 m1 s1 H. destruct m as [con|]; cbn [PyTokenize.step] in H.
  - unfold at_line in H. destruct ((l_par l =? 0)%Z && negb con).
    + destruct s as [|s0 s']; [discriminate|]. remember (s0 :: s') as s. pose proof (span_app blank_c s) as SA. destruct (span blank_c s) as [ws r]. cbn [fst snd] in SA.
      symmetry in SA. apply app_le in SA. destruct r as [|c r]; [discriminate|]. destruct (existsb (N.eqb c) [35; 13; 10]%N) eqn:EC.
      * destruct (cut_line (c :: r)) as [line rest] eqn:C. pose proof C as C2. apply cut_line_spec in C as [E _].
        assert (NL : line <> []) by (intros ->; cbn in C2; destruct (N.eqb c 10); [discriminate|]; destruct (cut_line r); discriminate).
        apply app_lt in E; [|exact NL]. destruct (N.eqb c 35); injection H as <- <- <- <-; cbn [measure]; lia.
      * destruct (top (l_ins l) <? width ws)%Z; [injection H as <- <- <- <-; cbn [measure]; lia|].
        destruct (_ && _); [discriminate|]. destruct (drop_ins _ _). injection H as <- <- <- <-. cbn [measure]. lia.
    + destruct s; [discriminate|]. injection H as <- <- <- <-. cbn [measure]. lia.
  - unfold inline in H. pose proof (span_app blank_c s) as SA. destruct (span blank_c s) as [ws r]. cbn [fst snd] in SA.
    assert (LE : length r <= length s) by (apply (app_le ws); congruence).
    destruct r as [|c0 r0] eqn:ER; [injection H as <- <- <- <-; cbn [measure length]; destruct s; cbn; lia|]. rewrite <- ER in *.
    assert (NE : r <> []) by congruence. assert (LS : measure Inline s = 3 * length s) by (cbn [measure]; destruct s; [rewrite ER in LE; cbn in LE; lia|lia]). rewrite LS.
    pose proof (pseudo_lt r NE) as PL. destruct (pseudo r) as [r1|k x r1|x r1|p q r1|p q b r1|].
    + injection H as <- <- <- <-. cbn [measure]. lia.
    + destruct k; injection H as <- <- <- <-; apply measure_inline; lia.
    + injection H as <- <- <- <-. cbn [measure]. lia.
    + destruct (l_need l).
      * destruct (cut_line r1) as [line rest] eqn:C. apply cut_line_spec in C as [-> _]. rewrite app_length in PL.
        destruct (tail3 false q line) as [[x y]|] eqn:T.
        -- destruct (tail3_app false q _ _ _ _ (le_n _) T) as (_ & -> & _). injection H as <- <- <- <-. apply measure_inline. rewrite app_length in *. lia.
        -- unfold go_on in H. pose proof (cont3_le false q (S (length rest)) ((p ++ [q; q; q]) ++ line) rest) as CL.
           destruct (cont_lines _ _ _ _) as [[t r2|t r2]|]; [| |discriminate]; injection H as <- <- <- <-; [apply measure_inline|cbn [measure]]; lia.
      * destruct (tail3 true q r1) as [[x y]|] eqn:T; [|discriminate]. destruct (tail3_app true q _ _ _ _ (le_n _) T) as (_ & -> & _). injection H as <- <- <- <-.
        apply measure_inline. rewrite app_length in *. lia.
    + destruct (endswith [10%N] b).
      * unfold go_on in H. pose proof (cont_le q (S (length r1)) (p ++ [q] ++ b) r1) as CL.
        destruct (cont_lines _ _ _ _) as [[t r2|t r2]|]; [| |discriminate]; injection H as <- <- <- <-; [apply measure_inline|cbn [measure]]; lia.
      * injection H as <- <- <- <-. apply measure_inline. lia.
    + destruct s as [|c s]; [discriminate|]. injection H as <- <- <- <-. apply measure_inline. cbn. lia.
Qed.
Lemma run_fuel : forall w fuel l m s, measure m s < fuel -> snd (run w fuel l m s) <> Some OutOfFuel.
Proof.
  intros w. induction fuel as [|fuel IH]; intros l m s H; [lia|]. cbn [PyTokenize.run]. destruct (step w l m s) as [ts e|ts l1 m1 s1] eqn:S.
  - cbn. clear -S. destruct m as [con|]; cbn [PyTokenize.step] in S.
    + unfold at_line in S. destruct ((l_par l =? 0)%Z && negb con).
      * destruct s as [|s0 s]; [injection S as _ <-; discriminate|]. destruct (span blank_c (s0 :: s)) as [ws [|c r]]; [injection S as _ <-; discriminate|].
        destruct (existsb _ _); [destruct (cut_line (c :: r)); destruct (N.eqb c 35); discriminate|]. destruct (_ <? _)%Z; [discriminate|].
        destruct (_ && _); [injection S as _ <-; discriminate|]. destruct (drop_ins _ _). discriminate.
      * destruct s; [injection S as _ <-; discriminate|discriminate].
    + unfold inline, go_on in S. destruct (span blank_c s) as [ws [|c r]]; [discriminate|]. destruct (pseudo (c :: r)) as [r1|k x r1|x r1|p q r1|p q b r1|]; try discriminate.
      * destruct k; discriminate.
      * destruct (l_need l).
        -- destruct (cut_line r1). destruct (tail3 _ _ _) as [[? ?]|]; [discriminate|]. destruct (cont_lines _ _ _ _) as [[? ?|? ?]|]; try discriminate. injection S as _ <-. discriminate.
        -- destruct (tail3 _ _ _) as [[? ?]|]; [discriminate|]. injection S as _ <-. discriminate.
      * destruct (endswith _ _); [|discriminate]. destruct (cont_lines _ _ _ _) as [[? ?|? ?]|]; try discriminate. injection S as _ <-. discriminate.
      * destruct s; [injection S as _ <-; discriminate|discriminate].
  - apply step_measure in S. specialize (IH l1 m1 s1). destruct (run w fuel l1 m1 s1) as [us e]. cbn in *. apply IH. lia.
Qed.
Lemma run_more_fuel : forall w fuel l m s k, snd (run w fuel l m s) <> Some OutOfFuel -> run w (k + fuel) l m s = run w fuel l m s.
Proof.
  intros w. induction fuel as [|fuel IH]; intros l m s k H; [cbn in H; congruence|]. rewrite Nat.add_succ_r. cbn [PyTokenize.run] in *.
  destruct (step w l m s) as [ts e|ts l1 m1 s1]; auto. rewrite IH; auto. destruct (run w fuel l1 m1 s1); exact H.
Qed.
Lemma run_tokenize : forall fuel s ts, run s fuel lstate0 (AtLine false) s = (ts, None) -> tokenize word s = (ts, None).
Proof.
  intros fuel s ts H. unfold tokenize. set (n := 3 * length s + 3).
  assert (A : snd (run s n lstate0 (AtLine false) s) <> Some OutOfFuel) by (apply run_fuel; cbn [measure]; lia).
  assert (B : snd (run s fuel lstate0 (AtLine false) s) <> Some OutOfFuel) by (rewrite H; discriminate).
  rewrite <- (run_more_fuel s n lstate0 (AtLine false) s fuel A), Nat.add_comm, (run_more_fuel s fuel lstate0 (AtLine false) s n B). exact H.
Qed.
End Word.

(** ** The new text *)
Lemma after_ge : forall s a, (fst a <= fst (after a s))%Z /\ (fst (after a s) = fst a -> (snd a + Z.of_nat (length s) <= snd (after a s))%Z).
Proof.
  induction s as [|c s IH]; intros a; cbn [after length]; [split; lia|]. destruct (N.eqb c 10).
  - destruct (IH (fst a + 1, 0)%Z) as [A B]. cbn [fst snd] in *. split; lia.
  - destruct (IH (fst a, snd a + 1)%Z) as [A B]. cbn [fst snd] in *. split; [lia|]. intros E. specialize (B E). lia.
Qed.
Lemma after_inj : forall g1 g2 a x y, g1 ++ x = g2 ++ y -> after a g1 = after a g2 -> g1 = g2.
Proof.
  induction g1 as [|c g1 IH]; intros [|d g2] a x y E A; auto.
  - exfalso. cbn [after] in A. destruct (N.eqb d 10).
    + destruct (after_ge g2 (fst a + 1, 0)%Z) as [B _]. rewrite <- A in B. cbn in B. lia.
    + destruct (after_ge g2 (fst a, snd a + 1)%Z) as [B C]. rewrite <- A in *. cbn [fst snd] in *. specialize (C eq_refl). lia.
  - exfalso. cbn [after] in A. destruct (N.eqb c 10).
    + destruct (after_ge g1 (fst a + 1, 0)%Z) as [B _]. rewrite A in B. cbn in B. lia.
    + destruct (after_ge g1 (fst a, snd a + 1)%Z) as [B C]. rewrite A in *. cbn [fst snd] in *. specialize (C eq_refl). lia.
  - cbn [app] in E. injection E as -> E. f_equal. cbn [after] in A. eapply IH; eauto.
Qed.
Lemma respelled_unique : forall a ts s ts' s1, respelled a ts s ts' s1 -> forall s2, respelled a ts s ts' s2 -> s1 = s2.
Proof.
  induction 1 as [a|a t r t' r' E|a t r s t' r' s' E H IH|a g t r s t' r' s' E S H IH|a g t r s t' r' s' E S H IH]; intros s2 H2.
  - inversion H2. reflexivity.
  - inversion H2 as [|? ? ? ? ? E2|? ? ? ? ? ? ? E2 X|? ? ? ? ? ? ? ? E2 S2 X|? ? ? ? ? ? ? ? E2 S2 X]; subst; auto; exfalso;
      [destruct E2|unfold ends_line in E2; destruct E2|destruct E2 as [?|[?|?]]]; congruence.
  - inversion H2 as [|? ? ? ? ? E2|? ? ? ? ? ? ? E2 X|? ? ? ? ? ? ? ? E2 S2 X|? ? ? ? ? ? ? ? E2 S2 X]; subst; auto; exfalso.
    + destruct E; congruence.
    + unfold ends_line in E2. destruct E, E2; congruence.
    + destruct E, E2 as [?|[?|?]]; congruence.
  - inversion H2 as [|? ? ? ? ? E2|? ? ? ? ? ? ? E2 X|? g2 ? ? ? ? ? ? E2 S2 X|? g2 ? ? ? ? ? ? E2 S2 X]; subst.
    + unfold ends_line in E. destruct E; congruence.
    + unfold ends_line in E. destruct E, E2; congruence.
    + assert (g2 = g) as -> by (eapply (after_inj _ _ a); [eassumption|congruence]). repeat f_equal. apply IH.
      match goal with Q : g ++ _ ++ _ = g ++ _ ++ _ |- _ => apply app_inv_head, app_inv_head in Q; subst end. assumption.
    + unfold ends_line in E. destruct E, E2 as [?|[?|?]]; congruence.
  - inversion H2 as [|? ? ? ? ? E2|? ? ? ? ? ? ? E2 X|? g2 ? ? ? ? ? ? E2 S2 X|? g2 ? ? ? ? ? ? E2 S2 X]; subst.
    + destruct E as [?|[?|?]]; congruence.
    + destruct E as [?|[?|?]], E2; congruence.
    + unfold ends_line in E2. destruct E as [?|[?|?]], E2; congruence.
    + assert (g2 = g) as -> by (eapply (after_inj _ _ a); [eassumption|congruence]). repeat f_equal. apply IH.
      match goal with Q : g ++ _ ++ _ = g ++ _ ++ _ |- _ => apply app_inv_head, app_inv_head in Q; subst end. assumption.
Qed.

(** ** A file with other strings is read back *)
Theorem read_back : forall word src ts ts' c, tokenize word src = (ts, None) -> existsb fst ts = false -> closed src ->
  Forall2 replaced (map snd ts) ts' -> respelled (1, 0)%Z (map snd ts) src ts' c ->
  exists ts2, tokenize word c = (ts2, None) /\ existsb fst ts2 = false /\ map kt (map snd ts2) = map kt ts' /\ closed c.
Proof.
  intros word src ts ts' c T F C R S. destruct (simulation word src C _ lstate0 (AtLine false) src ts ts' T F eq_refl C R) as (s' & RS & _ & OK & RR).
  rewrite (respelled_unique _ _ _ _ _ S _ RS) in *. cbn [ok] in OK. destruct (RR s' (1, 0)%Z OK) as (ts2 & A & B & D). exists ts2. split; auto.
  eapply run_tokenize. exact A.
Qed.
