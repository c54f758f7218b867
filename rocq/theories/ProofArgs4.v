(** Proofs for C55: whole runs of the program. *)
From Verif Require Import PyStr Lib PyTokens FileHandler Args SpecArgs SpecRun ProofRun ProofRun2 ProofRun3 ProofArgs ProofArgs2 ProofArgs3.
Local Open Scope str_scope.
Local Open Scope list_scope.

Lemma take_exit : forall x p n, take_action x p = Exit n -> n = 2 \/ n = 0 /\ (x = AHelp \/ x = AVersion).
Proof. intros x p n. destruct x; cbn [take_action]; try (intros [= <-]; auto); destruct (_ (p_opts p)); try discriminate; intros [= <-]; auto. Qed.
Lemma name_asks : forall a name x, means a name -> lookup name = Some x -> x = AHelp \/ x = AVersion -> asks_help a.
Proof.
  intros a name x M L [->| ->].
  - left. assert (name = "--help") as <-; auto. eapply lookup_one; [apply M|left; auto|exact L|reflexivity].
  - right. left. assert (name = "--version") as <-; auto. eapply lookup_one; [apply M|right; left; auto|exact L|reflexivity].
Qed.
Lemma explicit_h : forall a x o sep e xs, parse_optional a = Optional (Some x, o, sep, Some e) ->
  cluster x o (match sep with Some s => s | None => [] end) e = Some xs -> x = AHelp /\ exists r, a = "-h" ++ r.
Proof.
  intros a x o sep e xs H C. unfold parse_optional in H. destruct a as [|c r]; [discriminate|]. destruct (N.eqb_spec c 45); [|discriminate]. subst c.
  cbn [negb] in H. remember (45%N :: r) as a eqn:Ea. destruct (lookup a) as [y|] eqn:K; [discriminate|].
  destruct r as [|d r]; [discriminate|]. destruct (partition_eq a) as [[p' b] e'] eqn:P.
  assert (In (o, x) OPTION_STRINGS -> o = "-h" /\ x = AHelp) as D.
  { intros J. destruct (options_in _ J) as [Q|Q]; [injection Q as -> ->; auto|]. cbn [fst] in Q. destruct (long_dashes _ Q) as (u & v & ->). destruct e; discriminate C. }
  pose proof (partition_spec _ _ _ _ P) as [_ PS].
  destruct (if b then lookup p' else None) as [y|] eqn:L.
  { injection H as -> -> <- ->. destruct b; [|discriminate]. destruct D as [-> ->]; [apply lookup_in; auto|]. split; auto.
    destruct PS as [[_ ->]|[F _]]; [|discriminate]. eauto. }
  destruct (option_tuples a) as [|t [|t' l]] eqn:T; [|injection H as ->|discriminate].
  { destruct (negative_number a); [discriminate|]. destruct (has 32 a); discriminate. }
  unfold option_tuples in T. match type of T with ?l = _ => assert (In (Some x, o, sep, Some e) l) as I by (rewrite T; left; reflexivity) end.
  destruct (startswith "--" a) eqn:SW.
  - exfalso. rewrite P in I. apply in_map_iff in I as ([n y] & E & I). cbn [fst snd] in E. injection E as -> -> E1 E2. apply filter_In in I as [I S2].
    destruct D as [-> ->]; auto. cbn [fst] in S2. apply startswith_true in S2 as [w S2]. apply startswith_true in SW as [v SW].
    destruct b; [|discriminate]. destruct PS as [[_ PS]|[F _]]; [|discriminate]. rewrite SW in PS.
    destruct p' as [|p1 [|p2 p]]; cbn [app] in PS; try discriminate. injection PS as <- <- _. discriminate.
  - apply in_flat_map in I as ([n y] & J & I). cbn [fst snd] in I. destruct (str_eqb n _) eqn:N.
    + destruct I as [I|[]]; injection I as -> -> _ _. destruct D as [-> ->]; auto. split; auto. apply str_eqb_eq in N. exists (skipn 2 a). rewrite N. symmetry. apply (firstn_skipn 2).
    + destruct (startswith a n); [destruct I as [I|[]]; discriminate|destruct I].
Qed.
Lemma consume_exit : forall a t p n, parse_optional a = Optional t -> consume_optional t a p = Exit n -> n = 2 \/ n = 0 /\ asks_help a.
Proof.
  intros a [[[[x|] o] sep] [e|]] p n P H; cbn [consume_optional] in H; try discriminate.
  - destruct (cluster x o _ e) as [[xs ex]|] eqn:C; [|injection H as <-; auto]. pose proof (explicit_h _ _ _ _ _ _ P C) as [-> R].
    apply cluster_head in C as [ys ->]. cbn [take_actions take_action] in H. injection H as <-. right. split; auto. right. right. auto.
  - apply take_exit in H as [->|[-> X]]; auto. right. split; auto. apply read_means in P as [[-> _]|(name & M & L)].
    + right. right. exists []. auto.
    + eapply name_asks; eauto.
Qed.
Lemma loop_exit : forall l argv skip p n, (marks argv = Some l \/ exists r, l = map (pair MA) r) -> args_loop skip l p = Exit n ->
  n = 2 \/ n = 0 /\ exists pre a post, argv = pre ++ a :: post /\ ~ In "--" pre /\ asks_help a.
Proof.
  induction l as [|[m a] l IH]; intros argv skip p n M H; [discriminate|].
  assert (exists argv', (marks argv' = Some l \/ exists r, l = map (pair MA) r)
           /\ ((exists pre b post, argv' = pre ++ b :: post /\ ~ In "--" pre /\ asks_help b) -> exists pre b post, argv = pre ++ b :: post /\ ~ In "--" pre /\ asks_help b)) as (argv' & M' & Up).
  { destruct M as [M|[[|b r] E]]; [| discriminate|].
    - apply marks_cons in M as (r & -> & M). assert (a <> "--" -> (exists pre b post, r = pre ++ b :: post /\ ~ In "--" pre /\ asks_help b) -> exists pre b post, a :: r = pre ++ b :: post /\ ~ In "--" pre /\ asks_help b) as Up.
      { intros N (pre & b & post & -> & I & A). exists (a :: pre), b, post. repeat split; auto. intros [X|X]; auto. }
      destruct m.
      + destruct M as (N & _ & M). exists r. auto.
      + destruct M as (N & _ & M). exists r. auto.
      + destruct M as [-> ->]. exists []. split; eauto. intros ([|? ?] & b & post & E & _); discriminate.
    - injection E as -> -> ->. exists []. split; eauto. intros ([|? ?] & b' & post & E & _); discriminate. }
  assert (forall k q, args_loop k l q = Exit n -> n = 2 \/ n = 0 /\ exists pre a post, argv = pre ++ a :: post /\ ~ In "--" pre /\ asks_help a) as Rec.
  { intros k q Z. destruct (IH _ _ _ _ M' Z) as [->|[-> X]]; auto. }
  cbn [args_loop] in H. destruct skip as [|k]; [|eauto]. destruct m as [t| |].
  - destruct M as [M|[[|b r] E]]; [| discriminate|discriminate]. apply marks_cons in M as (r & -> & N & P & M).
    destruct (consume_optional t a p) eqn:C; [|eauto]. injection H as <-. apply (consume_exit _ _ _ _ P) in C as [->|[-> A]]; auto.
    right. split; auto. exists [], a, r. repeat split; auto.
  - destruct (p_src p); [eauto|]. destruct (match_plus _) as [[|n']|]; eauto.
  - destruct (p_src p); [eauto|]. destruct (match_plus _) as [[|n']|]; eauto.
Qed.
Lemma quit_status : forall argv n, parse_args argv = Quit n ->
  n = 2 \/ n = 0 /\ exists pre a post, argv = pre ++ a :: post /\ ~ In "--" pre /\ asks_help a.
Proof.
  intros argv n H. unfold parse_args in H. destruct (marks argv) as [l|] eqn:M; [|injection H as <-; auto].
  match type of H with match ?t with _ => _ end = _ => destruct t as [k|q] eqn:A end; [injection H as <-; eapply loop_exit; [left; exact M|exact A]|].
  destruct (p_src q); [destruct (p_extras q)|]; try discriminate; injection H as <-; auto.
Qed.
Lemma task_not_dashes : forall l, Forall task_word l -> ~ In "--" l.
Proof. intros l F I. rewrite Forall_forall in F. apply F in I as (n & _ & _ & L & _). cbn in L. lia. Qed.
Lemma files_not_dashes : forall l, Forall file_word l -> ~ In "--" l.
Proof. intros l F I. rewrite Forall_forall in F. apply F in I. apply file_not_dashes. auto. Qed.

Definition busy (o : options) : bool := f_format o || f_check o || f_validate o || f_verbose o.
Lemma run_command : forall E argv srcs o w, command argv srcs o -> program E argv w = if busy o then handle_inputs E o srcs w else (2, w).
Proof.
  intros E argv srcs o w C. unfold program. rewrite (proj2 (parse_iff _ _ _) C). destruct C as (o1 & f & o2 & _ & _ & _ & NE & _ & _ & _ & _ & N1 & N2).
  unfold main, busy. destruct srcs; [contradiction|]. destruct (f_format o), (f_check o), (f_validate o), (f_verbose o); try reflexivity; exfalso; auto.
Qed.
Lemma run_other : forall E argv w code w', program E argv w = (code, w') -> (forall srcs o, ~ command argv srcs o) ->
  w' = w /\ (code = 2 \/ code = 0 /\ exists pre a post, argv = pre ++ a :: post /\ ~ In "--" pre /\ asks_help a).
Proof.
  intros E argv w code w' H N. unfold program in H. destruct (parse_args argv) as [n|srcs o] eqn:P.
  - injection H as <- <-. split; auto. apply quit_status. auto.
  - apply parse_iff in P. destruct (N _ _ P).
Qed.
Lemma written_format : forall E argv c code w, program E argv (start c) = (code, w) -> writes (trace w) <> [] \/ contents w <> c ->
  exists pre a post, argv = pre ++ a :: post /\ ~ In "--" pre /\ means a "--format".
Proof.
  intros E argv c code w H D. assert (~ (writes (trace w) = [] /\ contents w = c)) as D' by tauto. clear D. unfold program in H.
  destruct (parse_args argv) as [n|srcs o] eqn:P; [injection H as <- <-; exfalso; apply D'; auto|].
  apply parse_iff in P. pose proof (run_command E _ _ _ (start c) P) as R. unfold program in R. rewrite (proj2 (parse_iff _ _ _) P), H in R.
  destruct (busy o); [|injection R as _ ->; exfalso; apply D'; auto]. destruct (f_format o) eqn:F; [|exfalso; apply D'; eapply not_written; eauto].
  destruct P as (o1 & f & o2 & -> & T & FW & _ & B & _). destruct (proj1 B F) as (a & I & M). apply Forall_app in T as [T1 T2].
  apply in_app_or in I as [I|I]; apply in_split in I as (x & y & ->).
  - exists x, a, (y ++ f ++ o2). split; [rewrite <- app_assoc; reflexivity|]. split; auto. apply Forall_app in T1 as [T1 _]. apply task_not_dashes; auto.
  - exists (o1 ++ f ++ x), a, y. split; [rewrite <- !app_assoc; reflexivity|]. split; auto. destruct FW as [[FW ->]|(p & q & _ & _ & _ & Z)]; [|destruct x; discriminate].
    apply Forall_app in T2 as [T2 _]. intros I. apply in_app_or in I as [I|I]; [apply (task_not_dashes _ T1); auto|].
    apply in_app_or in I as [I|I]; [apply (files_not_dashes _ FW)|apply (task_not_dashes _ T2)]; auto.
Qed.

Lemma task_no_help : forall a, task_word a -> ~ asks_help a.
Proof.
  intros a (n & I & M) [H|[H|[r E]]].
  - rewrite (means_one _ _ _ M H) in I. cbn [In] in I. repeat destruct I as [I|I]; try discriminate; contradiction.
  - rewrite (means_one _ _ _ M H) in I. cbn [In] in I. repeat destruct I as [I|I]; try discriminate; contradiction.
  - destruct M as (J & _ & [s X] & _). destruct (long_dashes _ J) as (u & v & Z). rewrite Z, E in X. discriminate.
Qed.
Lemma file_no_help : forall a, file_word a -> ~ asks_help a.
Proof.
  intros a F H. apply read_file in F. destruct H as [H|[H|[r E]]].
  - apply means_read in H as (x & o & P & _). congruence.
  - apply means_read in H as (x & o & P & _). congruence.
  - apply read_file in F. destruct F as [F|[F|(_ & _ & F)]]; [subst; eapply F; reflexivity|subst; discriminate|eapply F; eauto].
Qed.
Lemma status_two : forall argv, Forall (fun a => task_word a \/ file_word a) argv -> forall n, parse_args argv = Quit n -> n = 2.
Proof.
  intros argv F n H. apply quit_status in H as [->|[_ (pre & a & post & -> & _ & A)]]; auto. exfalso.
  rewrite Forall_forall in F. destruct (F a) as [T|T]; [apply in_or_app; right; left; auto|eapply task_no_help; eauto|eapply file_no_help; eauto].
Qed.
Lemma task_not_file : forall a, task_word a -> ~ file_word a.
Proof. intros a (n & _ & M) F. apply means_read in M as (x & o & P & _). apply read_file in F. congruence. Qed.
Lemma in_perm : forall (P : str -> Prop) (o1 o2 u v : list str), (forall x, In x (o1 ++ o2) <-> In x (u ++ v)) -> ((exists a, In a (o1 ++ o2) /\ P a) <-> exists a, In a (u ++ v) /\ P a).
Proof. intros P o1 o2 u v H. split; intros (a & I & Q); exists a; split; auto; apply H; auto. Qed.
(** the only way to read tasks around plain files *)
Lemma split_words : forall t1 f t2, Forall task_word (t1 ++ t2) -> Forall file_word f -> forall srcs o, command (t1 ++ f ++ t2) srcs o -> srcs = f /\ f <> [] /\
  forall u1 u2, u1 ++ u2 = t1 ++ t2 -> command (u1 ++ f ++ u2) f o.
Proof.
  intros t1 f t2 T F srcs o (o1 & g & o2 & E & TO & FW & NE & B1 & B2 & B3 & B4 & X1 & X2).
  assert (filter (fun a => match parse_optional a with Positional => true | _ => false end) (t1 ++ f ++ t2) = f
          /\ filter (fun a => match parse_optional a with Positional => false | _ => true end) (t1 ++ f ++ t2) = t1 ++ t2) as [K1 K2].
  { assert (forall l, Forall task_word l -> filter (fun a => match parse_optional a with Positional => true | _ => false end) l = [] /\ filter (fun a => match parse_optional a with Positional => false | _ => true end) l = l) as HT.
    { intros l Z. induction Z as [|a l A Z [I1 I2]]; auto. cbn [filter]. destruct A as (n & _ & M). apply means_read in M as (x & oo & P & _). rewrite P, I2. auto. }
    assert (forall l, Forall file_word l -> filter (fun a => match parse_optional a with Positional => true | _ => false end) l = l /\ filter (fun a => match parse_optional a with Positional => false | _ => true end) l = []) as HF.
    { intros l Z. induction Z as [|a l A Z [I1 I2]]; auto. cbn [filter]. apply read_file in A. rewrite A, I1. auto. }
    apply Forall_app in T as [T1 T2]. rewrite !filter_app. destruct (HT _ T1) as [-> ->], (HT _ T2) as [-> ->], (HF _ F) as [-> ->]. rewrite app_nil_r. auto. }
  assert (~ In "--" (t1 ++ f ++ t2)) as ND.
  { apply Forall_app in T as [T1 T2]. intros I. apply in_app_or in I as [I|I]; [exact (task_not_dashes _ T1 I)|]. apply in_app_or in I as [I|I]; [exact (files_not_dashes _ F I)|exact (task_not_dashes _ T2 I)]. }
  destruct FW as [[G ->]|(p & q & -> & _ & _ & ->)]; [|exfalso; apply ND; rewrite E; apply in_or_app; right; rewrite app_nil_r; apply in_or_app; right; left; auto].
  rewrite E in K1, K2.
  assert (g = f /\ o1 ++ o2 = t1 ++ t2) as [-> EO].
  { assert (forall l, Forall task_word l -> filter (fun a => match parse_optional a with Positional => true | _ => false end) l = [] /\ filter (fun a => match parse_optional a with Positional => false | _ => true end) l = l) as HT.
    { intros l Z. induction Z as [|a l A Z [I1 I2]]; auto. cbn [filter]. destruct A as (n & _ & M). apply means_read in M as (x & oo & P & _). rewrite P, I2. auto. }
    assert (forall l, Forall file_word l -> filter (fun a => match parse_optional a with Positional => true | _ => false end) l = l /\ filter (fun a => match parse_optional a with Positional => false | _ => true end) l = []) as HF.
    { intros l Z. induction Z as [|a l A Z [I1 I2]]; auto. cbn [filter]. apply read_file in A. rewrite A, I1. auto. }
    apply Forall_app in TO as [T1 T2]. rewrite !filter_app in K1, K2. destruct (HT _ T1) as [H1 H2], (HT _ T2) as [H3 H4], (HF _ G) as [H5 H6].
    rewrite H1, H3, H5, app_nil_r in K1. rewrite H2, H4, H6 in K2. auto. }
  repeat split; auto. intros u1 u2 EU. exists u1, f, u2. rewrite EU, <- EO. split; auto. split; auto. split; [left; auto|]. repeat (split; [assumption|]). auto.
Qed.
Lemma order : forall t1 f t2 u1 u2, Forall task_word (t1 ++ t2) -> Forall file_word f -> u1 ++ u2 = t1 ++ t2 -> parse_args (u1 ++ f ++ u2) = parse_args (t1 ++ f ++ t2).
Proof.
  intros t1 f t2 u1 u2 T F E.
  assert (forall a b, a ++ b = t1 ++ t2 -> Forall (fun x => task_word x \/ file_word x) (a ++ f ++ b)) as W.
  { intros a b Z. rewrite <- Z in T. apply Forall_app in T as [T1 T2]. apply Forall_app. split; [eapply Forall_impl; [|exact T1]; auto|]. apply Forall_app. split; [eapply Forall_impl; [|exact F]; auto|eapply Forall_impl; [|exact T2]; auto]. }
  destruct (parse_args (u1 ++ f ++ u2)) as [n|srcs o] eqn:P.
  - rewrite (status_two _ (W _ _ E) _ P). destruct (parse_args (t1 ++ f ++ t2)) as [m|srcs o] eqn:Q; [rewrite (status_two _ (W _ _ eq_refl) _ Q); auto|].
    exfalso. apply parse_iff in Q. destruct (split_words _ _ _ T F _ _ Q) as (-> & _ & K). specialize (K _ _ E). apply parse_iff in K. congruence.
  - apply parse_iff in P. rewrite <- E in T. destruct (split_words _ _ _ T F _ _ P) as (-> & _ & K). symmetry. apply parse_iff. apply K. auto.
Qed.
Lemma busy_true : forall o, busy o = true <-> f_format o = true \/ f_check o = true \/ f_validate o = true \/ f_verbose o = true.
Proof. intros o. unfold busy. rewrite !orb_true_iff. tauto. Qed.
Lemma run_handled : forall E argv srcs o w, command argv srcs o ->
  f_format o = true \/ f_check o = true \/ f_validate o = true \/ f_verbose o = true ->
  program E argv w = handle_inputs E o srcs w.
Proof. intros E argv srcs o w C B. rewrite (run_command E _ _ _ w C). apply busy_true in B. rewrite B. reflexivity. Qed.
Lemma run_cases : forall E argv w code w', program E argv w = (code, w') ->
  (exists srcs o, command argv srcs o
     /\ (f_format o = true \/ f_check o = true \/ f_validate o = true \/ f_verbose o = true)
     /\ (code, w') = handle_inputs E o srcs w)
  \/ w' = w /\ (code = 2 \/ code = 0 /\ exists pre a post, argv = pre ++ a :: post /\ ~ In "--" pre /\ asks_help a).
Proof.
  intros E argv w code w' H. destruct (parse_args argv) as [n|srcs o] eqn:P.
  - right. unfold program in H. rewrite P in H. injection H as <- <-. split; auto. apply quit_status. auto.
  - apply parse_iff in P. pose proof (run_command E _ _ _ w P) as R. rewrite H in R. destruct (busy o) eqn:B.
    + left. exists srcs, o. rewrite <- busy_true. auto.
    + right. injection R as -> ->. auto.
Qed.
Lemma between : exists t f1 f2, task_word t /\ Forall file_word (f1 ++ f2) /\
  parse_args (t :: f1 ++ f2) = Parsed (f1 ++ f2) (mk_opts true false false false) /\ parse_args (f1 ++ t :: f2) = Quit 2.
Proof.
  exists "--format", ["a.py"], ["b.py"]. split; [|split; [|split; reflexivity]].
  - exists "--format". split; [cbn [In]; tauto|]. split; [cbn [LONG In]; tauto|]. split; [cbn; lia|]. split; [exists []; reflexivity|].
    intros other r I E. apply (long_prefix other "--format" r); auto. cbn [LONG In]; tauto.
  - constructor; [left; discriminate|]. constructor; [left; discriminate|]. constructor.
Qed.
