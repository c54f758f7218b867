(** Proofs for C55: the loop of argparse over the arguments. *)
From Verif Require Import PyStr Lib PyTokens FileHandler Args SpecArgs ProofArgs.
Local Open Scope str_scope.
Local Open Scope list_scope.

(** ** The options *)
Definition act1 (x : action) (o : options) : option options :=
  match take_action x (mk_parsing None o []) with Go q => Some (p_opts q) | Exit _ => None end.
Fixpoint acts (xs : list action) (o : options) : option options :=
  match xs with [] => Some o | x :: xs => match act1 x o with Some o => acts xs o | None => None end end.
Lemma take_act : forall x p, match act1 x (p_opts p) with Some o => take_action x p = Go (set_opts p o) | None => exists n, take_action x p = Exit n end.
Proof. intros x [s [a b c d] e]. destruct x; cbn; eauto; [destruct a|destruct b|destruct d|destruct c]; cbn; eauto. Qed.
Definition aeqb (x y : action) : bool :=
  match x, y with
  | AHelp, AHelp | AVersion, AVersion | ACheck, ACheck | AFormat, AFormat | AValidate, AValidate | AVerbose, AVerbose => true
  | _, _ => false end.
Definition hasA (x : action) (xs : list action) : bool := existsb (aeqb x) xs.
Lemma hasA_In : forall x xs, hasA x xs = true <-> In x xs.
Proof.
  intros x xs. unfold hasA. rewrite existsb_exists. split.
  - intros (y & I & E). destruct x, y; try discriminate; auto.
  - intros I. exists x. split; auto. destruct x; reflexivity.
Qed.
Definition consistent (o : options) : Prop := f_format o && f_check o = false /\ f_validate o && f_verbose o = false.
Definition union (o : options) (xs : list action) : options :=
  mk_opts (f_format o || hasA AFormat xs) (f_check o || hasA ACheck xs) (f_validate o || hasA AValidate xs) (f_verbose o || hasA AVerbose xs).
Lemma acts_spec : forall xs o o', consistent o ->
  (acts xs o = Some o' <-> hasA AHelp xs = false /\ hasA AVersion xs = false /\ o' = union o xs /\ consistent o').
Proof.
  induction xs as [|x xs IH]; intros o o' C; cbn [acts].
  - destruct o as [a b c d]. unfold union. cbn. rewrite !orb_false_r. split; [intros [= <-]; auto|intros (_ & _ & -> & _); auto].
  - destruct o as [a b c d]. destruct C as [C1 C2]. cbn in C1, C2. unfold act1. destruct x; cbn [take_action p_opts f_format f_check f_validate f_verbose].
    + split; [discriminate|]. intros (H & _). discriminate.
    + split; [discriminate|]. intros (_ & H & _). discriminate.
    + destruct a.
      * split; [discriminate|]. intros (_ & _ & -> & H & _). unfold union in H. cbn in H. rewrite orb_true_r in H. discriminate.
      * cbn [set_opts p_opts]. rewrite IH by (split; cbn; auto). unfold union. cbn. destruct b; reflexivity.
    + destruct b.
      * split; [discriminate|]. intros (_ & _ & -> & H & _). unfold union in H. cbn in H. rewrite orb_true_r in H. discriminate.
      * cbn [set_opts p_opts]. rewrite IH by (split; cbn; auto). unfold union. cbn. destruct a; reflexivity.
    + destruct d.
      * split; [discriminate|]. intros (_ & _ & -> & _ & H). unfold union in H. cbn in H. rewrite orb_true_r in H. discriminate.
      * cbn [set_opts p_opts]. rewrite IH by (split; cbn; auto). unfold union. cbn. destruct c; reflexivity.
    + destruct c.
      * split; [discriminate|]. intros (_ & _ & -> & _ & H). unfold union in H. cbn in H. rewrite orb_true_r in H. discriminate.
      * cbn [set_opts p_opts]. rewrite IH by (split; cbn; auto). unfold union. cbn. destruct d; reflexivity.
Qed.

(** ** The loop *)
Definition aopt (m : mark * str) (x : action) : Prop := exists o sep, fst m = MO (Some x, o, sep, None).
Definition wfm (m : mark * str) : Prop :=
  match fst m with MO (Some x, o, sep, Some e) => forall p, exists n, consume_optional (Some x, o, sep, Some e) (snd m) p = Exit n | _ => True end.
Lemma consume_extras : forall t a p q, consume_optional t a p = Go q -> exists e, p_extras q = p_extras p ++ e.
Proof.
  assert (forall x p q, take_action x p = Go q -> p_extras q = p_extras p) as T1.
  { intros x p q H. pose proof (take_act x p) as K. destruct (act1 _ _); [|destruct K; congruence]. rewrite K in H. injection H as <-. reflexivity. }
  assert (forall xs p q, take_actions xs p = Go q -> p_extras q = p_extras p) as T.
  { induction xs as [|x xs IH]; intros p q H; cbn [take_actions] in H; [congruence|]. destruct (take_action x p) eqn:E; [discriminate|]. apply IH in H. apply T1 in E. congruence. }
  intros [[[[x|] o] sep] [e|]] a p q H; cbn [consume_optional] in H.
  - destruct (cluster _ _ _ _) as [[xs l]|]; [|discriminate]. apply T in H. rewrite H. cbn. eauto.
  - apply T1 in H. exists []. rewrite app_nil_r. auto.
  - injection H as <-. cbn. eauto.
  - injection H as <-. cbn. eauto.
Qed.
Lemma loop_extras : forall l k p q, args_loop k l p = Go q -> exists e, p_extras q = p_extras p ++ e.
Proof.
  induction l as [|[m a] l IH]; intros k p q H; cbn [args_loop] in H.
  - injection H as <-. exists []. rewrite app_nil_r. auto.
  - destruct k as [|k]; [|eauto].
    assert (forall p', args_loop 0 l (add_extra p' [a]) = Go q -> p_extras p' = p_extras p -> exists e, p_extras q = p_extras p ++ e) as X.
    { intros p' H' E. apply IH in H' as [e H']. rewrite H'. cbn. rewrite E, <- app_assoc. eauto. }
    destruct m as [t| |].
    + destruct (consume_optional t a p) eqn:C; [discriminate|]. apply consume_extras in C as [e1 C]. apply IH in H as [e2 H]. rewrite H, C, <- app_assoc. eauto.
    + destruct (p_src p); [eauto|]. destruct (match_plus _) as [[|n]|]; [eauto| |eauto]. apply IH in H as [e H]. cbn in H. eauto.
    + destruct (p_src p); [eauto|]. destruct (match_plus _) as [[|n]|]; [eauto| |eauto]. apply IH in H as [e H]. cbn in H. eauto.
Qed.
Lemma extra_not : forall l k p q a, args_loop k l (add_extra p [a]) = Go q -> p_extras q <> [].
Proof. intros l k p q a H E. apply loop_extras in H as [e H]. rewrite E in H. cbn in H. destruct (p_extras p); discriminate. Qed.
Lemma loop_skip : forall l k p, args_loop k l p = args_loop 0 (skipn k l) p.
Proof.
  induction l as [|[m a] l IH]; intros k p; [destruct k; reflexivity|]. destruct k as [|k]; [reflexivity|]. cbn [skipn]. rewrite <- IH. reflexivity.
Qed.
Lemma set_set : forall p o o', set_opts (set_opts p o) o' = set_opts p o'.
Proof. reflexivity. Qed.

(** one option at the head *)
Lemma loop_option : forall t a l p q, wfm (MO t, a) -> args_loop 0 ((MO t, a) :: l) p = Go q -> p_extras q = [] ->
  exists x o, aopt (MO t, a) x /\ act1 x (p_opts p) = Some o /\ args_loop 0 l (set_opts p o) = Go q.
Proof.
  intros t a l p q W H E. cbn [args_loop] in H. destruct (consume_optional t a p) as [|p'] eqn:C; [discriminate|].
  destruct t as [[[[x|] o] sep] [e|]].
  - unfold wfm in W. cbn [fst snd] in W. destruct (W p) as [n W']. congruence.
  - cbn [consume_optional] in C. pose proof (take_act x p) as K. destruct (act1 x (p_opts p)) as [o'|] eqn:A; [|destruct K; congruence].
    rewrite K in C. injection C as <-. exists x, o'. repeat split; auto. exists o, sep. reflexivity.
  - cbn in C. injection C as <-. destruct (extra_not _ _ _ _ _ H E).
  - cbn in C. injection C as <-. destruct (extra_not _ _ _ _ _ H E).
Qed.
Lemma loop_after : forall l p q s, Forall wfm l -> p_src p = Some s -> args_loop 0 l p = Go q -> p_extras q = [] ->
  exists xs o, Forall2 aopt l xs /\ acts xs (p_opts p) = Some o /\ q = set_opts p o.
Proof.
  induction l as [|[m a] l IH]; intros p q s W S H E.
  - cbn in H. injection H as <-. exists [], (p_opts p). repeat split; auto. destruct p; reflexivity.
  - inversion W as [|? ? W1 W2]; subst. destruct m as [t| |].
    + destruct (loop_option _ _ _ _ _ W1 H E) as (x & o & A & T & H'). destruct (IH (set_opts p o) _ s W2 S H' E) as (xs & o' & F & T' & ->).
      exists (x :: xs), o'. repeat split; auto. cbn [acts]. rewrite T. auto.
    + cbn [args_loop] in H. rewrite S in H. destruct (extra_not _ _ _ _ _ H E).
    + cbn [args_loop] in H. rewrite S in H. destruct (extra_not _ _ _ _ _ H E).
Qed.
Lemma loop_before : forall l p q s, Forall wfm l -> p_src p = None -> args_loop 0 l p = Go q -> p_extras q = [] -> p_src q = Some s ->
  exists l1 l2 n xs1 xs2 o, l = l1 ++ l2 /\ Forall2 aopt l1 xs1 /\ match_plus l2 = Some n /\ Forall2 aopt (skipn n l2) xs2
  /\ s = remove_dashes (firstn n (map snd l2)) /\ acts (xs1 ++ xs2) (p_opts p) = Some o /\ p_opts q = o.
Proof.
  induction l as [|[m a] l IH]; intros p q s W SN H E Q.
  - cbn in H. congruence.
  - inversion W as [|? ? W1 W2]; subst. destruct m as [t| |].
    + destruct (loop_option _ _ _ _ _ W1 H E) as (x & o & A & T & H'). destruct (IH (set_opts p o) _ s W2 SN H' E Q) as (l1 & l2 & n & xs1 & xs2 & o' & -> & F1 & M & F2 & -> & T' & Q').
      exists ((MO t, a) :: l1), l2, n, (x :: xs1), xs2, o'. repeat split; auto. cbn [acts app]. rewrite T. auto.
    + assert (exists n, match_plus ((MA, a) :: l) = Some (S n)) as [n M] by (cbn; eauto).
      cbn [args_loop] in H. rewrite SN, M in H. rewrite loop_skip in H.
      assert (Forall wfm (skipn n l)) as W3. { apply Forall_forall. intros y Y. rewrite Forall_forall in W2. apply W2. rewrite <- (firstn_skipn n l). apply in_or_app. auto. }
      match type of H with args_loop 0 ?l0 ?p0 = _ => destruct (loop_after l0 p0 q _ W3 eq_refl H E) as (xs & o & F & T & ->) end. exists [], ((MA, a) :: l), (S n), [], xs, o. repeat split; auto. cbn [set_opts p_src] in Q. congruence.
    + destruct (match_plus ((MD, a) :: l)) as [[|n]|] eqn:M.
      * cbn in M. destruct (match_plus l); discriminate.
      * cbn [args_loop] in H. rewrite SN, M in H. rewrite loop_skip in H.
        assert (Forall wfm (skipn n l)) as W3. { apply Forall_forall. intros y Y. rewrite Forall_forall in W2. apply W2. rewrite <- (firstn_skipn n l). apply in_or_app. auto. }
        match type of H with args_loop 0 ?l0 ?p0 = _ => destruct (loop_after l0 p0 q _ W3 eq_refl H E) as (xs & o & F & T & ->) end. exists [], ((MD, a) :: l), (S n), [], xs, o. repeat split; auto. cbn [set_opts p_src] in Q. congruence.
      * cbn [args_loop] in H. rewrite SN, M in H. destruct (extra_not _ _ _ _ _ H E).
Qed.
(** and the other way round *)
Lemma run_options : forall l1 xs, Forall2 aopt l1 xs -> forall l2 p o, acts xs (p_opts p) = Some o -> args_loop 0 (l1 ++ l2) p = args_loop 0 l2 (set_opts p o).
Proof.
  intros l1 xs F. induction F as [|[m a] x l1 xs A F IH]; intros l2 p o T.
  - cbn in T. injection T as <-. destruct p; reflexivity.
  - cbn [acts] in T. destruct (act1 x (p_opts p)) as [o1|] eqn:A1; [|discriminate]. destruct A as (w & sep & E). cbn in E. subst m.
    cbn [app args_loop consume_optional]. pose proof (take_act x p) as K. rewrite A1 in K. rewrite K. apply IH with (p := set_opts p o1). auto.
Qed.
Lemma run_all : forall l1 l2 n xs1 xs2 p o, Forall2 aopt l1 xs1 -> match_plus l2 = Some n -> Forall2 aopt (skipn n l2) xs2 -> p_src p = None ->
  acts (xs1 ++ xs2) (p_opts p) = Some o ->
  args_loop 0 (l1 ++ l2) p = Go (mk_parsing (Some (remove_dashes (firstn n (map snd l2)))) o (p_extras p)).
Proof.
  intros l1 l2 n xs1 xs2 p o F1 M F2 SN T.
  assert (exists o1, acts xs1 (p_opts p) = Some o1 /\ acts xs2 o1 = Some o) as (o1 & T1 & T2).
  { clear - T. revert T. generalize (p_opts p). induction xs1 as [|x xs IH]; intros o0 T; [exists o0; auto|]. cbn [acts app] in *. destruct (act1 x o0); [auto|discriminate]. }
  rewrite (run_options _ _ F1 _ _ _ T1). destruct l2 as [|[m a] l]; [discriminate|].
  assert (exists k, n = S k) as [k ->]. { destruct m; cbn in M; try discriminate; [injection M as <-; eauto|destruct (match_plus l); [injection M as <-; eauto|discriminate]]. }
  assert (forall r, args_loop 0 (skipn k l) (mk_parsing (Some r) o1 (p_extras p)) = Go (mk_parsing (Some r) o (p_extras p))) as Z.
  { intros r. rewrite <- (app_nil_r (skipn k l)). erewrite run_options; [|exact F2|exact T2]. reflexivity. }
  cbn [args_loop]. destruct m; [discriminate| |]; rewrite M; cbn [set_opts p_src p_opts p_extras]; rewrite SN, loop_skip; apply Z.
Qed.
