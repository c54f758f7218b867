(** Proofs for C55: command lines. *)
From Verif Require Import PyStr Lib PyTokens FileHandler Args SpecArgs SpecRun ProofRun ProofRun2 ProofRun3 ProofArgs ProofArgs2.
Local Open Scope str_scope.
Local Open Scope list_scope.

Lemma marks_cons : forall argv m a l, marks argv = Some ((m, a) :: l) -> exists r, argv = a :: r /\
  match m with
  | MD => a = "--" /\ l = map (pair MA) r
  | MA => a <> "--" /\ parse_optional a = Positional /\ marks r = Some l
  | MO t => a <> "--" /\ parse_optional a = Optional t /\ marks r = Some l
  end.
Proof.
  intros [|b r] m a l H; cbn [marks] in H; [discriminate|]. destruct (str_eqb b "--") eqn:E.
  - apply str_eqb_eq in E. injection H as <- <- <-. exists r. auto.
  - apply str_eqb_neq in E. destruct (parse_optional b) eqn:P; [|discriminate|]; (destruct (marks r) as [l'|] eqn:M; [|discriminate]); injection H as <- <- <-; exists r; auto.
Qed.
Lemma marks_nil : forall argv, marks argv = Some [] -> argv = [].
Proof.
  intros [|b r] H; auto. cbn [marks] in H. destruct (str_eqb b "--"); [discriminate|].
  destruct (parse_optional b); [|discriminate|]; destruct (marks r); discriminate.
Qed.
Lemma marks_wf : forall l argv, marks argv = Some l -> Forall wfm l.
Proof.
  induction l as [|[m a] l IH]; intros argv H; [constructor|]. apply marks_cons in H as (r & -> & H). constructor.
  - destruct m as [[[[[x|] o] sep] [e|]]| |]; cbn; auto. destruct H as (_ & P & _). intros p. destruct (explicit_exits _ _ _ _ _ P p) as [n E]. exists n. exact E.
  - destruct m; [eapply IH; apply H|eapply IH; apply H|]. destruct H as [_ ->]. apply Forall_forall. intros y Y. apply in_map_iff in Y as (z & <- & _). exact I.
Qed.

(** what an option word does *)
Definition does (a : str) (x : action) : Prop := exists name, means a name /\ lookup name = Some x.
Lemma means_one : forall a n n', means a n -> means a n' -> n = n'.
Proof. intros a n n' (I & _ & (r & E) & _) (_ & _ & _ & U). eapply U; eauto. Qed.
Lemma lookup_one : forall n n' x, In n LONG -> In n' LONG -> lookup n = Some x -> lookup n' = Some x -> n = n'.
Proof.
  intros n n' x I J A B. apply lookup_in in A, B.
  assert (forall y z, In y OPTION_STRINGS -> In z OPTION_STRINGS -> snd y = snd z -> fst y <> "-h" -> fst z <> "-h" -> fst y = fst z) as F.
  { intros y z Y Z. cbn [OPTION_STRINGS In] in Y, Z.
    destruct Y as [<-|[<-|[<-|[<-|[<-|[<-|[<-|[]]]]]]]]; destruct Z as [<-|[<-|[<-|[<-|[<-|[<-|[<-|[]]]]]]]]; cbn [fst snd]; intros; try discriminate; try congruence. }
  apply (F _ _ A B eq_refl); cbn [fst]; intros E; subst; [clear J|clear I]; cbn [LONG In] in *;
    repeat match goal with H : _ \/ _ |- _ => destruct H as [H|H] end; try discriminate; contradiction.
Qed.
Lemma does_flag : forall ws xs, Forall2 does ws xs -> forall name x, In name LONG -> lookup name = Some x ->
  (hasA x xs = true <-> exists a, In a ws /\ means a name).
Proof.
  intros ws xs F name x I L. rewrite hasA_In. split.
  - intros J. induction F as [|a y ws xs (n & M & N) F IH]; [destruct J|]. destruct J as [->|J].
    + exists a. split; [left; auto|]. assert (n = name) by (eapply lookup_one; eauto; apply M). subst. auto.
    + destruct (IH J) as (b & B & M'). exists b. split; auto. right. auto.
  - intros (a & J & M). induction F as [|b y ws xs (n & M' & N) F IH]; [destruct J|]. destruct J as [->|J]; [|right; auto].
    left. assert (n = name) by (eapply means_one; eauto). subst. congruence.
Qed.
Lemma tasks_do : forall ws, Forall task_word ws <-> exists xs, Forall2 does ws xs /\ hasA AHelp xs = false /\ hasA AVersion xs = false.
Proof.
  intros ws. split.
  - intros F. induction F as [|a ws (n & I & M) F (xs & G & A & B)].
    + exists []. repeat split; auto.
    + destruct (long_in n) as (x & L & _); [apply M|]. exists (x :: xs). repeat split.
      * constructor; auto. exists n. auto.
      * cbn [hasA existsb]. rewrite orb_false_iff. split; auto. destruct x; auto. exfalso. cbn [In] in I. repeat destruct I as [<-|I]; try discriminate L. destruct I.
      * cbn [hasA existsb]. rewrite orb_false_iff. split; auto. destruct x; auto. exfalso. cbn [In] in I. repeat destruct I as [<-|I]; try discriminate L. destruct I.
  - intros (xs & F & A & B). induction F as [|a x ws xs (n & M & L) F IH]; constructor.
    + exists n. split; auto. destruct M as (J & _). cbn [hasA existsb] in A, B. apply orb_false_iff in A as [A _], B as [B _].
      cbn [LONG In] in J. destruct J as [<-|[<-|J]]; [| |cbn [In]; tauto]; vm_compute in L; injection L as <-; discriminate.
    + apply IH; cbn [hasA existsb] in A, B; apply orb_false_iff in A as [_ A], B as [_ B]; auto.
Qed.

(** from marks to words *)
Lemma marks_options : forall l1 xs, Forall2 aopt l1 xs -> hasA AHelp xs = false -> forall argv l2, marks argv = Some (l1 ++ l2) ->
  exists ws r, argv = ws ++ r /\ Forall2 does ws xs /\ marks r = Some l2.
Proof.
  intros l1 xs F. induction F as [|[m a] x l1 xs (o & sep & E) F IH]; intros NH argv l2 H.
  - exists [], argv. auto.
  - cbn [fst] in E. subst m. cbn [app] in H. apply marks_cons in H as (r & -> & N & P & M).
    cbn [hasA existsb] in NH. apply orb_false_iff in NH as [NH1 NH2]. destruct (IH NH2 _ _ M) as (ws & r' & -> & D & M').
    exists (a :: ws), r'. repeat split; auto. constructor; auto. apply read_means in P as [[_ ->]|P]; [discriminate|exact P].
Qed.
Lemma marks_files : forall argv l, marks argv = Some l ->
  let k := span_args l in
  Forall file_word (firstn k argv) /\ marks (skipn k argv) = Some (skipn k l)
  \/ exists p q, firstn k argv = p ++ "--" :: q /\ Forall file_word p /\ skipn k argv = [] /\ skipn k l = [].
Proof.
  induction argv as [|a argv IH]; intros l H.
  - cbn in H. injection H as <-. left. cbn. auto.
  - destruct l as [|[m b] l]; [apply marks_nil in H; discriminate|]. pose proof H as H0. apply marks_cons in H as (r & E & H). injection E as <- <-. destruct m.
    + left. cbn. auto.
    + destruct H as (N & P & M). cbn [span_args firstn skipn]. apply read_file in P. destruct (IH _ M) as [[F M']|(p & q & E & F & S1 & S2)].
      * left. auto.
      * right. exists (a :: p), q. cbn [app]. rewrite E. auto.
    + destruct H as [-> ->]. right. exists [], argv. cbn [span_args firstn skipn app].
      assert (span_args (map (pair MA) argv) = length argv) as -> by (clear; induction argv; cbn; auto).
      rewrite firstn_all, skipn_all, skipn_all2 by (rewrite map_length; auto). auto.
Qed.
Lemma plus_span : forall l n, match_plus l = Some n -> n = span_args l.
Proof.
  induction l as [|[m a] l IH]; intros n H; [discriminate|]. destruct m; cbn in *; [discriminate|congruence|].
  destruct (match_plus l); [|discriminate]. injection H as <-. f_equal. auto.
Qed.
Lemma file_not_dashes : ~ file_word "--".
Proof. intros H. apply read_file in H. vm_compute in H. discriminate. Qed.
Lemma remove_files : forall p, Forall file_word p -> remove_dashes p = p.
Proof.
  intros p F. induction F as [|a p A F IH]; auto. cbn [remove_dashes]. destruct (str_eqb a "--") eqn:E; [|congruence].
  apply str_eqb_eq in E. subst. destruct (file_not_dashes A).
Qed.
Lemma remove_behind : forall p q, Forall file_word p -> remove_dashes (p ++ "--" :: q) = p ++ q.
Proof.
  intros p q F. induction F as [|a p A F IH]; [reflexivity|]. cbn [app remove_dashes]. destruct (str_eqb a "--") eqn:E; [|congruence].
  apply str_eqb_eq in E. subst. destruct (file_not_dashes A).
Qed.
Lemma plus_nonempty : forall argv l n p q, marks argv = Some l -> match_plus l = Some n -> argv = p ++ "--" :: q -> Forall file_word p -> p ++ q <> [].
Proof.
  intros argv l n p q M P -> F E. apply app_eq_nil in E as [-> ->]. vm_compute in M. injection M as <-. discriminate.
Qed.
Lemma does_mark : forall a x, does a x -> a <> "--" /\ exists o, parse_optional a = Optional (Some x, o, None, None).
Proof.
  intros a x (n & M & L). split; [destruct M as (_ & H & _); intros ->; cbn in H; lia|].
  apply means_read in M as (y & o & P & L'). exists o. congruence.
Qed.
Lemma options_marks : forall ws xs, Forall2 does ws xs -> exists l, Forall2 aopt l xs /\ forall r l', marks r = Some l' -> marks (ws ++ r) = Some (l ++ l').
Proof.
  intros ws xs F. induction F as [|a x ws xs D F (l & G & H)].
  - exists []. auto.
  - apply does_mark in D as (N & o & P). exists ((MO (Some x, o, None, None), a) :: l). split; [constructor; auto; exists o, None; reflexivity|].
    intros r l' M. cbn [app marks]. apply str_eqb_neq in N. rewrite N, P, (H _ _ M). reflexivity.
Qed.
Lemma files_marks : forall f, Forall file_word f -> forall r l', marks r = Some l' -> marks (f ++ r) = Some (map (pair MA) f ++ l').
Proof.
  intros f F. induction F as [|a f A F IH]; intros r l' M; auto. cbn [app marks map].
  destruct (str_eqb a "--") eqn:E; [apply str_eqb_eq in E; subst; destruct (file_not_dashes A)|]. apply read_file in A. rewrite A, (IH _ _ M). reflexivity.
Qed.
Lemma span_map : forall f l, span_args (map (pair MA) f ++ l) = length f + span_args l.
Proof. intros f l. induction f; cbn; auto. Qed.

Lemma map_words : forall f : list str, map snd (map (pair MA) f) = f.
Proof. intros f. rewrite map_map. apply map_id. Qed.
Definition none : options := mk_opts false false false false.
Lemma parse_iff : forall argv srcs o, parse_args argv = Parsed srcs o <-> command argv srcs o.
Proof.
  intros argv srcs o. assert (consistent none) as CN by (split; reflexivity). split.
  - unfold parse_args. destruct (marks argv) as [l|] eqn:M; [|discriminate]. fold none.
    destruct (args_loop 0 l (mk_parsing None none [])) as [n|p] eqn:A; [discriminate|]. destruct (p_src p) as [s|] eqn:S; [|discriminate].
    destruct (p_extras p) eqn:X; [|discriminate]. intros [= <- <-].
    destruct (loop_before l (mk_parsing None none []) p s (marks_wf _ _ M) eq_refl A X S) as (l1 & l2 & n & xs1 & xs2 & o & -> & F1 & P & F2 & -> & T & Eo).
    rewrite Eo. cbn [p_opts] in T. apply (acts_spec _ _ _ CN) in T as (H1 & H2 & -> & C).
    assert (forall x, hasA x (xs1 ++ xs2) = hasA x xs1 || hasA x xs2) as HA by (intros; apply existsb_app).
    rewrite HA in H1, H2. apply orb_false_iff in H1 as [H1 H1'], H2 as [H2 H2'].
    destruct (marks_options _ _ F1 H1 _ _ M) as (o1 & r & -> & D1 & M2).
    pose proof (plus_span _ _ P) as En.
    assert (map snd l2 = r) as Er. { clear - M2. revert r M2. induction l2 as [|[m a] l IH]; intros r M; [apply marks_nil in M; auto|].
      apply marks_cons in M as (r' & -> & M). cbn [map snd]. f_equal. destruct m; [apply IH; apply M|apply IH; apply M|].
      destruct M as [_ ->]. rewrite map_map. apply map_id. }
    assert (exists o2, r = firstn n r ++ o2 /\ Forall2 does o2 xs2 /\ file_words (firstn n r) (remove_dashes (firstn n r)) o2 /\ remove_dashes (firstn n r) <> []) as (o2 & E2 & D2 & FW & NE).
    { pose proof (marks_files _ _ M2) as K. cbv zeta in K. rewrite <- En in K. destruct K as [[F M3]|(p0 & q & E & F & S1 & S2)].
      - exists (skipn n r). split; [symmetry; apply firstn_skipn|]. rewrite <- (app_nil_r (skipn n l2)) in M3.
        destruct (marks_options _ _ F2 H1' _ _ M3) as (ws & r' & Ew & D & M4). apply marks_nil in M4. subst r'. rewrite app_nil_r in Ew. rewrite Ew.
        split; [exact D|]. rewrite (remove_files _ F). split; [left; auto|].
        destruct l2 as [|[m a] l2]; [discriminate|]. apply marks_cons in M2 as (r2 & -> & M2). destruct n as [|n]; [|discriminate].
        destruct m; cbn in P; try discriminate; destruct (match_plus l2); discriminate.
      - exists []. rewrite app_nil_r. assert (firstn n r = r) as Ef by (rewrite <- (firstn_skipn n r) at 2; rewrite S1, app_nil_r; auto).
        rewrite S2 in F2. inversion F2; subst xs2. repeat split; auto.
        + right. exists p0, q. repeat split; auto. rewrite E. apply remove_behind. auto.
        + rewrite E, remove_behind by auto. eapply plus_nonempty; [exact M2|exact P|rewrite <- Ef; exact E|auto]. }
    rewrite Er. exists o1, (firstn n r), o2. split; [congruence|].
    assert (Forall2 does (o1 ++ o2) (xs1 ++ xs2)) as D by (apply Forall2_app; auto).
    repeat (split; [solve [auto | apply tasks_do; exists (xs1 ++ xs2); rewrite !HA, H1, H1', H2, H2'; auto | unfold union; cbn [none f_format f_check f_validate f_verbose orb]; apply (does_flag _ _ D); [cbn; tauto|reflexivity]]|]).
    destruct C as [C1 C2]. apply andb_false_iff in C1, C2. split; intros [Q1 Q2]; [destruct C1|destruct C2]; congruence.
  - intros (o1 & f & o2 & -> & F & FW & NE & B1 & B2 & B3 & B4 & N1 & N2). apply tasks_do in F as (xs & D & H1 & H2).
    apply Forall2_app_inv_l in D as (xs1 & xs2 & D1 & D2 & ->).
    assert (acts (xs1 ++ xs2) none = Some o) as T.
    { apply (acts_spec _ _ _ CN). repeat split; auto.
      - destruct o as [a b c d]. cbn [f_format f_check f_validate f_verbose] in *. unfold union. cbn [none f_format f_check f_validate f_verbose orb].
        assert (Forall2 does (o1 ++ o2) (xs1 ++ xs2)) as D by (apply Forall2_app; auto).
        assert (forall u v : bool, (u = true <-> v = true) -> u = v) as BE by (intros [] [] [X Y]; auto; symmetry; auto).
        f_equal; apply BE.
        + rewrite B1. symmetry. apply (does_flag _ _ D); [cbn; tauto|reflexivity].
        + rewrite B2. symmetry. apply (does_flag _ _ D); [cbn; tauto|reflexivity].
        + rewrite B3. symmetry. apply (does_flag _ _ D); [cbn; tauto|reflexivity].
        + rewrite B4. symmetry. apply (does_flag _ _ D); [cbn; tauto|reflexivity].
      - destruct (f_format o), (f_check o); auto. exfalso. auto.
      - destruct (f_validate o), (f_verbose o); auto. exfalso. auto. }
    destruct (options_marks _ _ D1) as (l1 & G1 & M1). destruct (options_marks _ _ D2) as (l3 & G3 & M3).
    specialize (M3 [] [] eq_refl). rewrite !app_nil_r in M3.
    assert (exists l2 n, marks (f ++ o2) = Some l2 /\ match_plus l2 = Some n /\ Forall2 aopt (skipn n l2) xs2 /\ remove_dashes (firstn n (map snd l2)) = srcs) as (l2 & n & M2 & P & F2 & E).
    { destruct FW as [[F ->]|(p & q & -> & F & -> & ->)].
      - exists (map (pair MA) f ++ l3), (length f). split; [apply files_marks; auto|]. destruct f as [|a f]; [contradiction|].
        assert (span_args l3 = 0) as Z. { clear - G3. destruct G3 as [|[m a] x l xs (o & sep & E) G]; auto. cbn in E. subst. reflexivity. }
        cbn [map app match_plus length]. split; [rewrite span_map, Z, Nat.add_0_r; auto|].
        cbn [skipn snd firstn]. rewrite skipn_app, map_length, Nat.sub_diag, skipn_all2 by (rewrite map_length; auto). cbn [skipn app]. split; auto.
        rewrite map_app, map_words, firstn_app, firstn_all, Nat.sub_diag. cbn [firstn]. rewrite app_nil_r. apply remove_files. auto.
      - inversion D2; subst xs2. assert (marks ("--" :: q) = Some ((MD, "--") :: map (pair MA) q)) as Mq by reflexivity.
        exists (map (pair MA) p ++ (MD, "--") :: map (pair MA) q), (length (p ++ "--" :: q)). rewrite app_nil_r. split; [apply files_marks; auto|].
        assert (span_args ((MD, "--") :: map (pair MA) q) = S (length q)) as Z.
        { cbn [span_args]. f_equal. rewrite <- (app_nil_r (map (pair MA) q)), span_map. cbn [span_args]. apply Nat.add_0_r. }
        split.
        + destruct p as [|a p].
          * destruct q as [|b q]; [contradiction|]. cbn [map app match_plus option_map length]. rewrite <- (app_nil_r (map (pair MA) q)), span_map. cbn [span_args]. rewrite Nat.add_0_r. reflexivity.
          * cbn [map app match_plus length]. rewrite span_map, Z, app_length. reflexivity.
        + split; [rewrite skipn_all2; [constructor|rewrite !app_length; cbn [length]; rewrite !map_length; auto]|].
          rewrite firstn_all2 by (rewrite map_length, !app_length; cbn [length]; rewrite !map_length; auto).
          rewrite map_app. cbn [map snd]. rewrite !map_words. apply remove_behind. auto. }
    unfold parse_args. rewrite (M1 _ _ M2). fold none. erewrite run_all; [|exact G1|exact P|exact F2|reflexivity|exact T]. cbn [p_src p_extras p_opts]. congruence.
Qed.
