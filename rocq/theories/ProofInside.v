(** Proofs for C53: what stands in strings and comments, and what stands between the tokens. *)
From Verif Require Import PyStr Lib PyTokens PyTokenize SpecTokenize ProofLex ProofLex2 ProofTokenize ProofTokenize2 SpecLine ProofLine.
Local Open Scope str_scope.
Local Open Scope list_scope.

Lemma startswith_grow : forall p s b, startswith p s = true -> startswith p (s ++ b) = true.
Proof. intros p s b H. apply Lib.startswith_true in H as [r ->]. apply Lib.startswith_true. exists (r ++ b). rewrite <- app_assoc. reflexivity. Qed.
Lemma occ_app : forall p a b, occurrences p a + occurrences p b <= occurrences p (a ++ b).
Proof.
  intros p. induction a as [|c a IH]; intros b; cbn [occurrences app]; [lia|]. specialize (IH b).
  destruct (startswith p (c :: a)) eqn:E; [|destruct (startswith p _); lia].
  change (c :: a ++ b) with ((c :: a) ++ b). rewrite (startswith_grow _ _ b E). lia.
Qed.
Lemma occ_r : forall p a b, occurrences p b <= occurrences p (a ++ b).
Proof. intros p a b. pose proof (occ_app p a b). lia. Qed.
Lemma occ_l : forall p a b, occurrences p a <= occurrences p (a ++ b).
Proof. intros p a b. pose proof (occ_app p a b). lia. Qed.
(** an occurrence across the border of two texts *)
Lemma occ_across : forall p a u v b, u ++ v = p -> u <> [] -> v <> [] ->
  occurrences p (a ++ u) + 1 + occurrences p b <= occurrences p ((a ++ u) ++ v ++ b).
Proof.
  intros p a u v b E NU NV. induction a as [|c a IH].
  - cbn [app]. assert (Z : forall w, length w < length p -> occurrences p w = 0).
    { clear. induction w as [|c w IH]; intros L; auto. cbn [occurrences]. cbn [length] in L. rewrite IH by lia.
      destruct (startswith p (c :: w)) eqn:S; auto. apply Lib.startswith_true in S as [r S]. apply (f_equal (@length _)) in S. rewrite app_length in S. cbn in S. lia. }
    rewrite Z. 2: { rewrite <- E, app_length. destruct v; [congruence|cbn; lia]. }
    destruct u as [|c u]; [congruence|]. rewrite app_assoc, E. rewrite <- E. cbn [app occurrences].
    replace (c :: (u ++ v) ++ b) with (((c :: u) ++ v) ++ b) by reflexivity. rewrite Lib.startswith_app.
    pose proof (occ_r ((c :: u) ++ v) (u ++ v) b). cbn [app] in *. lia.
  - cbn [app occurrences]. destruct (startswith p (c :: a ++ u)) eqn:SW; [|destruct (startswith p _); lia].
    change (c :: (a ++ u) ++ v ++ b) with ((c :: a ++ u) ++ v ++ b). rewrite (startswith_grow _ _ _ SW). lia.
Qed.
Lemma occ_one : forall c s, occurrences [c] s = 0 -> ~ In c s.
Proof.
  intros c. induction s as [|d s IH]; intros H [].
  - subst d. cbn [occurrences startswith] in H. rewrite N.eqb_refl in H. discriminate.
  - cbn [occurrences] in H. apply IH; [|assumption]. lia.
Qed.

Lemma inside_app : forall p a b, inside p (a ++ b) = inside p a + inside p b.
Proof. intros. unfold inside. rewrite map_app, list_sum_app. reflexivity. Qed.
Definition mute (t : ptok) : Prop := t_type (snd t) <> TString /\ t_type (snd t) <> TComment.
Lemma inside_mute : forall p (ts : list ptok), Forall mute ts -> inside p (map snd ts) = 0.
Proof.
  intros p ts F. induction F as [|t ts [A B] _ IH]; auto. cbn [map]. change (snd t :: map snd ts) with ([snd t] ++ map snd ts). rewrite inside_app, IH.
  unfold inside. cbn [map list_sum fold_right]. destruct (t_type (snd t)); congruence || reflexivity.
Qed.
Lemma inside_one : forall p (b : bool) t, inside p (map snd [(b, t)]) <= occurrences p (t_text t).
Proof. intros. unfold inside. cbn [map list_sum fold_right snd]. destruct (t_type t); lia. Qed.

Definition rest_of (s : str) : str := snd (span blank_c s).
Lemma rest_le : forall p s, occurrences p (rest_of s) <= occurrences p s.
Proof. intros p s. unfold rest_of. pose proof (span_app blank_c s) as A. rewrite <- A at 2. apply occ_r. Qed.

Section Word.
Variable word : N -> bool.
Definition counted (s : str) (o : outcome) : Prop :=
  match o with
  | Done ts _ => Forall mute ts
  | More ts _ _ s1 => forall p n, n <= occurrences p (rest_of s1) -> inside p (map snd ts) + n <= occurrences p (rest_of s)
  end.
Lemma at_line_counted : forall whole c l s, counted s (at_line whole c l s).
Proof.
  intros whole c l s. unfold at_line. destruct ((l_par l =? 0)%Z && negb c).
  - assert (forall eof, counted s (finish whole eof l)) as F.
    { intros eof. unfold finish. cbn [counted]. apply Forall_app. split; [destruct (_ && _); repeat constructor; discriminate|].
      apply Forall_app. split; [|repeat constructor; discriminate]. apply Forall_forall. intros y Y. apply in_map_iff in Y as (z & <- & _). split; discriminate. }
    destruct s as [|d s]; [apply F|]. unfold counted, rest_of in *. destruct (span blank_c (d :: s)) as [ws r] eqn:SP. cbn [snd] in *.
    destruct r as [|e r]; [apply F|]. clear F.
    destruct (existsb _ _).
    + destruct (cut_line (e :: r)) as [line rest] eqn:C. apply cut_line_spec in C as [C _]. rewrite C.
      destruct (N.eqb e 35); intros p n L; pose proof (rest_le p rest) as RL; unfold rest_of in RL; pose proof (occ_app p line rest) as OA.
      * set (text := rev (dropwhile (fun c => N.eqb c 13 || N.eqb c 10) (rev line))).
        assert (ET : exists e, line = text ++ e).
        { subst text. clear. set (q := fun c : N => N.eqb c 13 || N.eqb c 10).
          assert (X : forall b, exists d, b = d ++ dropwhile q b) by (induction b as [|y b [d IHa]]; [exists []; reflexivity|cbn; destruct (q y); [exists (y :: d); cbn; congruence|exists []; reflexivity]]).
          destruct (X (rev line)) as [d E]. exists (rev d). rewrite <- rev_app_distr, <- E, rev_involutive. reflexivity. }
        destruct ET as [z ET]. pose proof (occ_l p text z) as OL. rewrite <- ET in OL.
        unfold inside. cbn [map snd tok t_type t_text list_sum fold_right]. lia.
      * unfold inside. cbn [map snd tok t_type t_text list_sum fold_right]. lia.
    + destruct (top (l_ins l) <? width ws)%Z.
      * intros p n L. pose proof (rest_le p (e :: r)) as RL. unfold rest_of in RL. unfold inside. cbn [map snd tok t_type t_text list_sum fold_right]. lia.
      * destruct (_ && _); [constructor|]. destruct (drop_ins _ _) as [k ins]. intros p n L. rewrite inside_mute.
        2: { apply Forall_forall. intros y Y. apply repeat_spec in Y. subst. split; discriminate. }
        pose proof (rest_le p (e :: r)) as RL. unfold rest_of in RL. lia.
  - destruct s as [|d s]; [constructor|]. intros p n L. exact L.
Qed.
Lemma go_on_counted : forall l ends a head s s0, (forall line a b, ends line = Some (a, b) -> line = a ++ b) -> rest_of s0 = head ++ s ->
  counted s0 (go_on l a head ends s).
Proof.
  intros l ends a head s s0 HE R. unfold go_on. pose proof (cont_spec ends HE (S (length s)) head s) as C. destruct (cont_lines _ ends head s) as [[t r|t r]|]; [| |constructor].
  - destruct C as (x & -> & ->). intros p n L. rewrite R, app_assoc. pose proof (rest_le p r). pose proof (occ_app p (head ++ x) r).
    pose proof (inside_one p false (mk_tok TString (head ++ x) a (move a (head ++ x)))) as I. cbn [t_text] in I. match goal with |- ?u + _ <= _ => assert (u <= occurrences p (head ++ x)) by exact I end. lia.
  - destruct C as (x & -> & -> & _). intros p n L. rewrite R, app_assoc. pose proof (rest_le p r). pose proof (occ_app p (head ++ x) r).
    unfold inside. cbn [map snd error_tok t_type t_text list_sum fold_right]. lia.
Qed.
Lemma inline_counted : forall l s, counted s (inline word l s).
Proof.
  intros l s. unfold inline. destruct (span blank_c s) as [ws r] eqn:SP. pose proof (span_split _ _ _ _ SP) as E.
  assert (RS : rest_of s = r) by (unfold rest_of; rewrite SP; reflexivity).
  destruct r as [|e r0] eqn:R.
  { intros p n L. rewrite RS. exact L. }
  rewrite <- R in *. clear R e r0. pose proof (pseudo_spec word r) as PS.
  assert (GT : forall b t rest m, r = t_text t ++ rest -> counted s (More [(b, t)] m Inline rest)).
  { intros b t rest m ER p n L. rewrite RS, ER. pose proof (rest_le p rest). pose proof (occ_app p (t_text t) rest). match goal with |- ?u + _ <= _ => assert (u <= occurrences p (t_text t)) by exact (inside_one p b t) end. lia. }
  assert (GN : forall ts x m md rest, Forall mute ts -> r = x ++ rest -> counted s (More ts m md rest)).
  { intros ts x m md rest F ER p n L. rewrite RS, ER, inside_mute by exact F. pose proof (rest_le p rest). pose proof (occ_r p x rest). lia. }
  destruct (pseudo word r) as [rest|k text rest|text rest|pr q rest|pr q body rest|].
  - destruct PS as (e & _ & ER). apply (GN _ (92%N :: e)); auto.
  - destruct PS as (_ & ER & _). destruct k; apply GT; exact ER.
  - destruct PS as (_ & ER). apply (GN _ text); auto. repeat constructor; destruct (0 <? l_par l)%Z; discriminate.
  - destruct PS as (ER & _). destruct (l_need l).
    + destruct (cut_line rest) as [line rest'] eqn:C. apply cut_line_spec in C as [-> _]. destruct (tail3 false q line) as [[x y]|] eqn:T.
      * destruct (tail3_app _ _ _ _ _ _ (le_n _) T) as (_ & EL & _). apply GT. cbn [t_text]. rewrite ER, EL, <- !app_assoc. reflexivity.
      * apply go_on_counted; [intros ln a b W; apply (tail3_app _ _ _ _ _ _ (le_n _) W)|]. rewrite RS, ER, <- !app_assoc. reflexivity.
    + destruct (tail3 true q rest) as [[x y]|] eqn:T; [|constructor]. destruct (tail3_app _ _ _ _ _ _ (le_n _) T) as (_ & EL & _).
      apply GT. cbn [t_text]. rewrite ER, EL, <- !app_assoc. reflexivity.
  - destruct PS as (ER & _). destruct (endswith [10%N] body).
    + apply go_on_counted; [intros ln a b W; apply (tail1_app _ _ _ _ _ (le_n _) W)|]. rewrite RS, ER. reflexivity.
    + apply GT. cbn [t_text]. exact ER.
  - destruct s as [|c s]; [constructor|]. intros p n L. replace (inside p _) with 0 by reflexivity.
    destruct ws as [|w ws].
    + cbn [app] in E. subst r. rewrite RS. pose proof (rest_le p s). pose proof (occ_r p [c] s). cbn [app] in *. lia.
    + assert (X : rest_of (c :: s) = rest_of s); [|rewrite X; exact L]. unfold rest_of. rewrite SP. cbn [span] in SP. destruct (blank_c c); [|discriminate].
      destruct (span blank_c s) as [a b]. cbn [snd] in *. congruence.
Qed.
Theorem run_inside : forall whole fuel l m s p, inside p (map snd (fst (run word whole fuel l m s))) <= occurrences p (rest_of s).
Proof.
  intros whole. induction fuel as [|fuel IH]; intros l m s p; cbn [run]; [cbn; lia|].
  assert (counted s (step word whole l m s)) as C by (destruct m; [apply at_line_counted|apply inline_counted]).
  destruct (step word whole l m s) as [ts e|ts l1 m1 s1].
  - cbn [fst]. rewrite inside_mute by exact C. lia.
  - specialize (IH l1 m1 s1 p). destruct (run word whole fuel l1 m1 s1) as [us e]. cbn [fst] in *. rewrite map_app, inside_app. apply C. exact IH.
Qed.
End Word.
