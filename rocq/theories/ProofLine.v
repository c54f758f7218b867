(** Proofs for C56: the tokenizer counts lines correctly. *)
From Verif Require Import PyStr Lib PyTokens PyTokenize SpecSource ProofLex ProofLex2 ProofTokenize ProofTokenize2 SpecLine.
Local Open Scope str_scope.
Local Open Scope list_scope.

Lemma after_app : forall x y a, after a (x ++ y) = after (after a x) y.
Proof. induction x as [|c x IH]; intros y a; [reflexivity|]. cbn [app after]. apply IH. Qed.
Lemma after_row : forall s a, fst (after a s) = (fst a + Z.of_nat (count_occ N.eq_dec s 10%N))%Z.
Proof.
  induction s as [|c s IH]; intros a; cbn [after count_occ]; [cbn; lia|]. rewrite IH. destruct (N.eqb_spec c 10) as [->|NE].
  - destruct (N.eq_dec 10 10); [|congruence]. cbn [fst]. lia.
  - destruct (N.eq_dec c 10); [congruence|]. cbn [fst]. lia.
Qed.
Lemma line_row : forall pre, fst (after (1, 0)%Z pre) = line_after pre.
Proof. intros. rewrite after_row. reflexivity. Qed.
Lemma after_nl : forall x a, after a (x ++ [10%N]) = (fst (after a x) + 1, 0)%Z.
Proof. intros. rewrite after_app. reflexivity. Qed.
Lemma below_after : forall p x e, has 10 x = false -> e = [10]%N \/ e = [13; 10]%N -> below p = after p (x ++ e).
Proof.
  intros p x e H [->| ->].
  - rewrite after_nl, <- right_line by auto. reflexivity.
  - change [13; 10]%N with ([13] ++ [10])%N. rewrite app_assoc, after_nl, <- right_line; [reflexivity|]. rewrite has_app, H. reflexivity.
Qed.

Section Word.
Variable word : N -> bool.
Lemma pseudo_spec : forall s, match pseudo word s with
  | FCont r => exists e, (e = [10]%N \/ e = [13; 10]%N) /\ s = (92%N :: e) ++ r
  | FTok k text r => k <> TString /\ s = text ++ r /\ has 10 text = false
  | FNewline text r => (text = [10]%N \/ text = [13; 10]%N) /\ s = text ++ r
  | FTriple p q r => s = (p ++ [q; q; q]) ++ r /\ quote_c q = true /\ has 10 p = false
  | FStr p q body r => s = (p ++ [q] ++ body) ++ r /\ quote_c q = true /\ has 10 p = false /\ (endswith [10%N] body = false -> has 10 body = false)
  | FNone => forall r, s <> 10%N :: r
  end.
Proof.
  intros s. destruct (slash s) as [[e r]|] eqn:SL.
  - unfold pseudo. fold (slash s). rewrite SL. unfold slash in SL. destruct s as [|c s]; [discriminate|]. destruct (N.eqb_spec c 92) as [->|]; [|discriminate].
    apply newline_spec in SL as (E & -> & _). exists e. auto.
  - destruct (startswith [35%N] s) eqn:S35.
    + unfold pseudo. fold (slash s). rewrite SL, S35. pose proof (span_app (fun c => negb (N.eqb c 13 || N.eqb c 10)) s) as A.
      pose proof (span_has (fun c => negb (N.eqb c 13 || N.eqb c 10)) eq_refl s) as B. destruct (span _ s) as [x y]. cbn [fst snd] in *. split; [discriminate|auto].
    + destruct (opening s) as [[[p q] y]|] eqn:OP.
      * rewrite (pseudo_opening word _ _ _ _ OP). destruct (opening_spec _ _ _ _ OP) as (ES & _ & Q & M). destruct (quote_10 q Q) as (Q10 & Q13 & Q92 & _).
        pose proof (prefix_line p M) as PL. destruct (startswith [q; q] y) eqn:SW.
        -- apply startswith_app in SW as [y0 ->]. rewrite ES. cbn [app skipn]. rewrite <- app_assoc. auto.
        -- destruct (one_line q y) as [[a b]|] eqn:OL.
           ++ destruct (one_line_app q (proj2 (N.eqb_neq _ _) Q13) (proj2 (N.eqb_neq _ _) Q10) (proj2 (N.eqb_neq _ _) Q92) _ _ _ _ (le_n _) OL) as (_ & -> & _).
              rewrite ES, <- app_assoc. repeat split; auto. intros W. eapply one_line_has; eauto.
           ++ destruct (name word s) as [[a b]|] eqn:NM.
              ** apply name_spec in NM as (E & NA & U). split; [discriminate|]. auto.
              ** intros r E. rewrite E in ES. destruct p as [|c p]; injection ES as <- _; [congruence|]. cbn in PL. discriminate.
      * unfold pseudo. fold (slash s). rewrite SL, S35, OP. destruct (number s) as [[a b]|] eqn:NU.
        { apply number_spec in NU as (-> & _ & U). split; [discriminate|auto]. }
        destruct (newline s) as [[a b]|] eqn:NL.
        { apply newline_spec in NL as (E & -> & _). auto. }
        destruct (operator s) as [[a b]|] eqn:OPR.
        { apply operator_spec in OPR as (-> & _ & U). split; [discriminate|auto]. }
        destruct (name word s) as [[a b]|] eqn:NM.
        { apply name_spec in NM as (E & NA & U). split; [discriminate|]. auto. }
        intros r ->. discriminate.
Qed.
Lemma cont_spec : forall ends, (forall line a b, ends line = Some (a, b) -> line = a ++ b) -> forall n acc s,
  match cont_lines n ends acc s with
  | Some (Closed t r) => exists x, t = acc ++ x /\ s = x ++ r
  | Some (Broken t r) => exists x, t = acc ++ x /\ s = x ++ r /\ (r = [] \/ endswith [10%N] t = true)
  | None => True
  end.
Proof.
  intros ends HE. induction n as [|n IH]; intros acc s; cbn [cont_lines]; auto. destruct (cut_line s) as [line rest] eqn:C. apply cut_line_spec in C as [-> C].
  destruct line as [|c line]; auto. destruct (ends (c :: line)) as [[a b]|] eqn:E.
  - apply HE in E. exists a. rewrite E, <- app_assoc. auto.
  - destruct (endswith _ _ || endswith _ _).
    + specialize (IH (acc ++ c :: line) rest). destruct (cont_lines n ends _ rest) as [[t r|t r]|]; auto.
      * destruct IH as (x & -> & ->). exists ((c :: line) ++ x). rewrite <- !app_assoc. auto.
      * destruct IH as (x & -> & -> & O). exists ((c :: line) ++ x). rewrite <- !app_assoc in *. auto.
    + exists (c :: line). repeat split; auto. destruct C as [[_ ->]|(l0 & -> & _)]; auto. right. rewrite app_assoc. apply endswith_10_true.
Qed.

(** one step: the text consumed, and the position after it, unless nothing follows *)
Definition good_pos (pre s : str) (p : Z * Z) : Prop := p = after (1, 0)%Z pre \/ s = [].
Definition good_step (pre s : str) (o : outcome) : Prop :=
  match o with
  | Done ts _ => Forall (fun t => t_type (snd t) <> TString) ts
  | More ts l _ s1 =>
    (exists x, s = x ++ s1 /\ Forall (fun t => t_type (snd t) <> TString) ts /\ good_pos (pre ++ x) s1 (l_pos l))
    \/ exists g t, s = g ++ t_text t ++ s1 /\ ts = [(false, t)] /\ fst (t_start t) = line_after (pre ++ g) /\ good_pos (pre ++ g ++ t_text t) s1 (l_pos l)
  end.
Lemma span_split : forall p s a b, span p s = (a, b) -> s = a ++ b.
Proof. intros p s a b H. pose proof (span_app p s) as A. rewrite H in A. auto. Qed.
Lemma blanks_line : forall s a b, span blank_c s = (a, b) -> has 10 a = false.
Proof. intros s a b H. pose proof (span_has blank_c eq_refl s) as A. rewrite H in A. auto. Qed.
Lemma at_line_good : forall whole c l pre s, good_pos pre s (l_pos l) -> good_step pre s (at_line whole c l s).
Proof.
  intros whole c l pre s G. unfold at_line. destruct ((l_par l =? 0)%Z && negb c).
  - assert (forall eof, good_step pre s (finish whole eof l)) as F.
    { intros eof. unfold finish. cbn [good_step]. apply Forall_app. split; [destruct (_ && _); repeat constructor; discriminate|].
      apply Forall_app. split; [|repeat constructor; discriminate]. apply Forall_forall. intros y Y. apply in_map_iff in Y as (z & <- & _). discriminate. }
    destruct s as [|d s]; [apply F|]. destruct (span blank_c (d :: s)) as [ws r] eqn:SP. pose proof (span_split _ _ _ _ SP) as E. pose proof (blanks_line _ _ _ SP) as B.
    destruct r as [|e r]; [apply F|]. destruct G as [G|]; [|discriminate]. rewrite E. clear SP F.
    assert (good_pos (pre ++ ws) (e :: r) (right (l_pos l) ws)) as GW by (left; rewrite after_app, <- G; apply right_line; auto).
    destruct (existsb _ _).
    + destruct (cut_line (e :: r)) as [line rest] eqn:C. apply cut_line_spec in C as [C D].
      assert (good_pos (pre ++ ws ++ line) rest (below (l_pos l))) as GL.
      { destruct D as [[_ ->]|(l0 & -> & L0)]; [right; auto|]. left. rewrite after_app, <- G, app_assoc. apply below_after; [|auto]. rewrite has_app, B. auto. }
      destruct (N.eqb e 35); left; exists (ws ++ line); rewrite C, <- app_assoc; (split; [reflexivity|]); (split; [repeat constructor; discriminate|exact GL]).
    + destruct (top (l_ins l) <? width ws)%Z.
      * left. exists ws. split; [reflexivity|]. split; [repeat constructor; discriminate|]. exact GW.
      * destruct (_ && _); [constructor|]. destruct (drop_ins _ _) as [k ins]. left. exists ws. split; [reflexivity|]. split; [|exact GW].
        apply Forall_forall. intros y Y. apply repeat_spec in Y. subst. discriminate.
  - destruct s as [|d s]; [constructor|]. left. exists []. rewrite app_nil_r. repeat split; auto.
Qed.
Lemma go_on_good : forall l ends pre ws head s, (forall line a b, ends line = Some (a, b) -> line = a ++ b) ->
  good_step pre (ws ++ head ++ s) (go_on l (after (1, 0)%Z (pre ++ ws)) head ends s).
Proof.
  intros l ends pre ws head s HE. unfold go_on. pose proof (cont_spec ends HE (S (length s)) head s) as C. destruct (cont_lines _ ends head s) as [[t r|t r]|]; [| |constructor].
  - destruct C as (x & -> & ->). right. exists ws, (mk_tok TString (head ++ x) (after (1, 0)%Z (pre ++ ws)) (move (after (1, 0)%Z (pre ++ ws)) (head ++ x))). cbn [t_text t_start l_pos].
    rewrite <- !app_assoc. repeat split; [apply line_row|]. left. rewrite move_after, <- after_app, <- app_assoc. reflexivity.
  - destruct C as (x & -> & -> & O). left. exists (ws ++ head ++ x). rewrite <- !app_assoc. split; [reflexivity|]. split; [repeat constructor; discriminate|]. cbn [l_pos].
    destruct O as [->|W]; [right; auto|]. left. rewrite W, move_after, <- after_app. apply endswith_app in W as [z ->]. rewrite <- app_assoc.
    rewrite !app_assoc, after_nl. cbn [fst]. f_equal. lia.
Qed.
Lemma inline_good : forall l pre s, good_pos pre s (l_pos l) -> good_step pre s (inline word l s).
Proof.
  intros l pre s G. unfold inline. destruct (span blank_c s) as [ws r] eqn:SP. pose proof (span_split _ _ _ _ SP) as E. pose proof (blanks_line _ _ _ SP) as B.
  destruct r as [|e r0] eqn:R.
  { left. exists s. rewrite app_nil_r. repeat split; auto. right. auto. }
  rewrite <- R in *. assert (NR : r <> []) by congruence. clear R e r0.
  assert (l_pos l = after (1, 0)%Z pre) as P by (destruct G as [G|G]; auto; exfalso; rewrite G in E; destruct ws; cbn in E; [congruence|discriminate]).
  assert (right (l_pos l) ws = after (1, 0)%Z (pre ++ ws)) as A by (rewrite P, right_line, after_app; auto). rewrite A. clear G.
  pose proof (pseudo_spec r) as PS.
  assert (forall t rest m, r = t_text t ++ rest -> t_start t = after (1, 0)%Z (pre ++ ws) -> l_pos m = after (after (1, 0)%Z (pre ++ ws)) (t_text t) ->
          good_step pre s (More [(false, t)] m Inline rest)) as GT.
  { intros t rest m ER ST EM. right. exists ws, t. rewrite E, ER, ST. repeat split; [apply line_row|]. left. rewrite EM, <- after_app, <- app_assoc. auto. }
  assert (forall t x rest m md, r = x ++ rest -> t_type (snd t) <> TString -> l_pos m = after (after (1, 0)%Z (pre ++ ws)) x -> good_step pre s (More [t] m md rest)) as GO.
  { intros t x rest m md ER NT EM. left. exists (ws ++ x). rewrite E, ER, <- app_assoc. repeat split; auto. left. rewrite EM, <- after_app, <- app_assoc. auto. }
  assert (forall m md x rest, r = x ++ rest -> l_pos m = after (after (1, 0)%Z (pre ++ ws)) x -> good_step pre s (More [] m md rest)) as GN.
  { intros m md x rest ER EM. left. exists (ws ++ x). rewrite E, ER, <- app_assoc. repeat split; auto. left. rewrite EM, <- after_app, <- app_assoc. auto. }
  assert (forall x e, has 10 x = false -> e = [10]%N \/ e = [13; 10]%N -> below (l_pos l) = after (after (1, 0)%Z (pre ++ ws)) (x ++ e)) as BL.
  { intros x e X Y. rewrite <- after_app, <- app_assoc, after_app, <- P, app_assoc. apply below_after; auto. rewrite has_app, B. auto. }
  destruct (pseudo word r) as [rest|k text rest|text rest|p q rest|p q body rest|].
  - destruct PS as (e & Y & ER). apply (GN _ _ (92%N :: e)); auto. cbn [l_pos]. apply (BL [92%N]); auto.
  - destruct PS as (NT & ER & H). assert (right (after (1, 0)%Z (pre ++ ws)) text = after (after (1, 0)%Z (pre ++ ws)) text) as RA by (apply right_line; auto).
    rewrite RA. destruct k; try (apply (GO _ text); auto); contradiction.
  - destruct PS as (Y & ER). apply (GO _ text); auto; [destruct (0 <? l_par l)%Z; discriminate|]. cbn [l_pos]. apply (BL []); auto.
  - destruct PS as (ER & Q & HP). destruct (quote_10 q Q) as (Q10 & _).
    assert (has 10 (p ++ [q; q; q]) = false) as HH. { rewrite has_app, HP. unfold has. cbn [existsb orb]. destruct (N.eqb_spec 10 q); [congruence|reflexivity]. }
    destruct (l_need l).
    + destruct (cut_line rest) as [line rest'] eqn:C. apply cut_line_spec in C as [-> D]. destruct (tail3 false q line) as [[x y]|] eqn:T.
      * destruct (tail3_app _ _ _ _ _ _ (le_n _) T) as ([x0 ->] & EL & _).
        assert (has 10 (x0 ++ [q; q; q]) = false) as HX.
        { destruct D as [[D _]|(l0 & D & L0)].
          - rewrite EL, has_app in D. apply orb_false_iff in D. tauto.
          - rewrite EL in D. destruct y as [|y0 y _] using rev_ind.
            + rewrite app_nil_r in D. change [q; q; q] with ([q; q] ++ [q]) in D. rewrite app_assoc in D. apply app_inj_tail in D as [_ D]. congruence.
            + rewrite app_assoc in D. apply app_inj_tail in D as [D _]. rewrite <- D, has_app in L0. apply orb_false_iff in L0. tauto. }
        rewrite right_line by (rewrite has_app, HH; auto). unfold tok. apply GT; [|reflexivity|reflexivity]. cbn [t_text]. rewrite ER, EL, <- !app_assoc. reflexivity.
      * rewrite E, ER. replace ((p ++ [q; q; q]) ++ line ++ rest') with (((p ++ [q; q; q]) ++ line) ++ rest') by (rewrite <- app_assoc; auto).
        apply go_on_good. intros ln a b W. apply (tail3_app _ _ _ _ _ _ (le_n _) W).
    + destruct (tail3 true q rest) as [[x y]|] eqn:T; [|constructor]. destruct (tail3_app _ _ _ _ _ _ (le_n _) T) as (_ & EL & _).
      unfold tok. rewrite move_after. apply GT; [|reflexivity|reflexivity]. cbn [t_text]. rewrite ER, EL, <- !app_assoc. reflexivity.
  - destruct PS as (ER & Q & HP & HB). destruct (quote_10 q Q) as (Q10 & _). destruct (endswith [10%N] body) eqn:W.
    + rewrite E, ER. apply go_on_good. intros ln a b V. apply (tail1_app _ _ _ _ _ (le_n _) V).
    + rewrite right_line.
      * unfold tok. apply GT; [|reflexivity|reflexivity]. cbn [t_text]. rewrite ER, <- !app_assoc. reflexivity.
      * rewrite !has_app, HP, HB by auto. unfold has. cbn [existsb orb]. destruct (N.eqb_spec 10 q); [congruence|reflexivity].
  - destruct s as [|c s]; [constructor|]. left. exists [c]. split; [reflexivity|]. split; [repeat constructor; discriminate|]. left. cbn [l_pos]. rewrite right_line.
    + rewrite P, <- after_app. reflexivity.
    + destruct ws as [|w ws]; [|injection E as -> _; unfold has in *; cbn [existsb] in *; apply orb_false_iff in B as [B _]; rewrite B; reflexivity].
      cbn [app] in E. unfold has. cbn [existsb]. destruct (N.eqb_spec 10 c); [|reflexivity]. subst. exfalso. eapply PS. reflexivity.
Qed.

Lemma located_others : forall ts us pre s, Forall (fun t => t_type (snd t) <> TString) ts -> located pre s us -> located pre s (map snd (ts : list ptok) ++ us).
Proof. intros ts us pre s F. induction F; intros L; [auto|]. cbn [map app]. constructor; auto. Qed.
Lemma located_skip : forall pre x s ts, located (pre ++ x) s ts -> located pre (x ++ s) ts.
Proof.
  intros pre x s ts H. remember (pre ++ x) as a eqn:A. revert pre x A. induction H as [a s|a s t ts N L IH|a g s t ts F L IH]; intros pre x ->; [constructor|constructor; auto|].
  replace (x ++ g ++ t_text t ++ s) with ((x ++ g) ++ t_text t ++ s) by (rewrite <- app_assoc; auto).
  apply located_string; rewrite <- ?app_assoc in *; auto.
Qed.
Lemma run_located : forall whole fuel l m s pre, good_pos pre s (l_pos l) -> located pre s (map snd (fst (run word whole fuel l m s))).
Proof.
  intros whole. induction fuel as [|fuel IH]; intros l m s pre G; cbn [run]; [constructor|].
  assert (good_step pre s (step word whole l m s)) as GS by (destruct m; [apply at_line_good|apply inline_good]; auto).
  destruct (step word whole l m s) as [ts e|ts l1 m1 s1].
  - cbn [fst]. rewrite <- (app_nil_r (map snd ts)). apply located_others; auto. constructor.
  - specialize (IH l1 m1 s1). destruct (run word whole fuel l1 m1 s1) as [us e]. cbn [fst] in *. rewrite map_app. destruct GS as [(x & -> & F & GP)|(g & t & -> & -> & LN & GP)].
    + apply located_others; auto. apply located_skip. auto.
    + cbn [map snd app]. apply located_string; auto.
Qed.
Theorem tokens_located : forall src, located [] src (fst (generate_tokens word src)).
Proof.
  intros src. unfold generate_tokens, tokenize. pose proof (run_located src (3 * length src + 3) lstate0 (AtLine false) src []) as H.
  destruct (run word src _ _ _ src) as [ts e]. cbn [fst] in *. apply H. left. reflexivity.
Qed.
End Word.
