(** C59: what happens to a file does not depend on the other inputs. *)
From Verif Require Import PyStr Lib Tokeniser Ast Parser Render Validate Api PyTokens FileHandler
  SpecVal SpecFile SpecRun ProofFile ProofFile2 ProofRun ProofRun2 SpecModes ProofModes.
From Coq Require Import Permutation.
Local Open Scope str_scope.
Local Open Scope list_scope.

Section Local.
  Variable E : env.
  Variable O : options.
  Variable c : N -> str.

  Lemma plan_all : forall l seen f, In (Some f) l -> mem (abspath E f) seen = false ->
    exists g, In (Some g) (plan E seen l) /\ abspath E g = abspath E f.
  Proof.
    induction l as [|[g|] l IH]; intros seen f I NM; [destruct I| |].
    - cbn [plan]. destruct (mem (abspath E g) seen) eqn:M.
      + destruct I as [[= ->]|I]; [congruence|]. auto.
      + destruct (str_eqb_spec (abspath E g) (abspath E f)) as [EQ|NE]; [exists g; split; [left; auto|auto]|].
        destruct I as [[= ->]|I]; [congruence|]. destruct (IH (abspath E g :: seen) f I) as (h & A & B).
        * rewrite mem_cons, NM, orb_false_r. apply str_eqb_neq. congruence.
        * exists h. split; [right; auto|auto].
    - destruct I as [I|I]; [discriminate|]. cbn [plan]. destruct (IH seen f I NM) as (h & A & B). exists h. split; [right; auto|auto].
  Qed.
  Lemma reads_plan : forall l, reads (flat_map (events O) (map (canon E O c) l)) = flat_map (fun x => match x with Some f => [f] | None => [] end) l.
  Proof.
    induction l as [|[f|] l IH]; auto; cbn [map flat_map]; rewrite reads_app, IH; f_equal. cbn [canon]. apply reads_events.
  Qed.
  Lemma find_id : forall l f, distinct E l -> In (Some f) l -> NoDup (map (fun x => match x with Some g => abspath E g | None => [] end) (filter (fun x => match x with Some _ => true | None => false end) l)) ->
    find (at_id E (file_id E f)) l = Some (Some f).
  Proof.
    induction l as [|[g|] l IH]; intros f D I ND; [destruct I| |].
    - cbn [find at_id]. destruct (N.eqb_spec (file_id E g) (file_id E f)) as [K|K].
      + destruct I as [[= ->]|I]; auto. exfalso. assert (AB : abspath E g = abspath E f) by (apply D; [left; auto|right; auto|auto]).
        cbn [filter map] in ND. inversion ND as [|? ? NI _]; subst. apply NI. rewrite AB. apply in_map_iff. exists (Some f). split; auto. apply filter_In. auto.
      + destruct I as [[= ->]|I]; [congruence|]. apply IH; auto; [intros x y X Y; apply D; right; auto|]. cbn [filter map] in ND. inversion ND; auto.
    - destruct I as [I|I]; [discriminate|]. cbn [find at_id]. apply IH; auto. intros x y X Y; apply D; right; auto.
  Qed.
  Lemma plan_nodup : forall l seen,
    NoDup (map (fun x => match x with Some g => abspath E g | None => [] end) (filter (fun x => match x with Some _ => true | None => false end) (plan E seen l))).
  Proof.
    induction l as [|[g|] l IH]; intros seen; cbn [plan]; [constructor| |].
    - destruct (mem (abspath E g) seen); auto. cbn [filter map]. constructor; auto. intros I. apply in_map_iff in I as (x & X & I).
      apply filter_In in I as [I S]. destruct x as [h|]; [|discriminate]. apply plan_in in I as [_ NM]. specialize (NM h eq_refl).
      rewrite mem_cons, X in NM. destruct (str_eqb_spec (abspath E g) (abspath E g)); [discriminate|congruence].
    - cbn [filter]. auto.
  Qed.
  Lemma single : forall f code w, isdir E f = false -> isfile E f = true -> handle_inputs E O [f] (start c) = (code, w) ->
    contents w (file_id E f) = after E O f c (analysed E O f c) (file_id E f)
    /\ trace w = events O (Did f c (analysed E O f c)) ++ summary O [Did f c (analysed E O f c)]
    /\ code = if (f_check O && (0 <? changed_queries [Did f c (analysed E O f c)])) || (f_validate O && (0 <? invalid_queries [Did f c (analysed E O f c)])) then 1 else 0.
  Proof.
    intros f code w D F H. pose proof (run_refines E O [f] c) as R. rewrite H in R. cbv zeta in R. destruct R as (RC & RT & RX).
    unfold files, files_of in RC, RT, RX. cbn [flat_map app] in RC, RT, RX. rewrite D, F in *. cbn [log mem existsb app contents_after flat_map] in RC, RT, RX. rewrite app_nil_r in RT.
    rewrite RC, RT. auto.
  Qed.

  Definition plain_files (srcs : list str) : Prop := forall f, In (Some f) (files E srcs) -> isdir E f = false /\ isfile E f = true.

  Theorem file_local : forall srcs code w f code' w', no_links E srcs -> handle_inputs E O srcs (start c) = (code, w) ->
    In f (reads (trace w)) -> isdir E f = false -> isfile E f = true -> handle_inputs E O [f] (start c) = (code', w') ->
    contents w (file_id E f) = contents w' (file_id E f)
    /\ exists pre block post lines, trace w = pre ++ (ERead f :: block) ++ post /\ trace w' = (ERead f :: block) ++ lines
       /\ reads lines = [] /\ writes lines = [].
  Proof.
    intros srcs code w f code' w' NL H R D F H'. destruct (run_plan E O c srcs _ _ NL H) as (C & T & _). cbv zeta in *.
    destruct (single f code' w' D F H') as (C' & T' & _). set (l := plan E [] (files E srcs)) in *.
    rewrite T, reads_app, (quiet_reads (summary O _)), app_nil_r, reads_plan in R by apply summary_quiet.
    apply in_flat_map in R as ([g|] & IL & R); [destruct R as [<-|[]]|destruct R].
    assert (DL : distinct E l) by (intros x y X Y; apply plan_in in X as [X _]; apply plan_in in Y as [Y _]; apply NL; auto).
    split.
    - rewrite C, C'. unfold later. rewrite (find_id l g DL IL) by apply plan_nodup. reflexivity.
    - apply in_split in IL as (l1 & l2 & SP).
      destruct (events_shape O g c (analysed E O g c)) as (ww & p & EV & _ & _).
      exists (flat_map (events O) (map (canon E O c) l1)), (ww ++ p), (flat_map (events O) (map (canon E O c) l2) ++ summary O (map (canon E O c) l)),
        (summary O [Did g c (analysed E O g c)]). rewrite <- EV. split; [|split; [exact T'|split; [apply quiet_reads|apply quiet_writes]; apply summary_quiet]].
      rewrite T. rewrite SP at 1. rewrite map_app, flat_map_app. cbn [map flat_map canon]. rewrite <- !app_assoc. reflexivity.
  Qed.
  Theorem others_kept : forall srcs code w k, no_links E srcs -> handle_inputs E O srcs (start c) = (code, w) ->
    (forall f, In f (reads (trace w)) -> file_id E f <> k) -> contents w k = c k.
  Proof.
    intros srcs code w k NL H K. destruct (run_plan E O c srcs _ _ NL H) as (C & T & _). cbv zeta in *. rewrite C.
    rewrite T, reads_app, (quiet_reads (summary O _)), app_nil_r, reads_plan in K by apply summary_quiet.
    unfold later. destruct (find _ _) as [[f|]|] eqn:FD; auto. apply find_some in FD as [I A]. cbn in A. apply N.eqb_eq in A.
    exfalso. apply (K f); auto. apply in_flat_map. exists (Some f). split; [exact I|left; auto].
  Qed.
  Lemma sum_one : forall g s, sum g [s] = match s with Did _ _ (Done r) => g r | _ => 0 end.
  Proof. intros g s. unfold sum. cbn [map]. change (list_sum [?a]) with (a + 0). lia. Qed.
  Lemma sum_exists : forall g l, 0 < sum g l <-> exists s, In s l /\ 0 < sum g [s].
  Proof.
    intros g l. unfold sum at 1. rewrite <- Nat.ltb_lt, sum_pos. split; intros (s & I & P); exists s; (split; [exact I|]); rewrite sum_one in *; exact P.
  Qed.
  Theorem status_any : forall srcs code w, no_links E srcs -> plain_files srcs -> handle_inputs E O srcs (start c) = (code, w) ->
    (code = 1 <-> exists f, In f (reads (trace w)) /\ fst (handle_inputs E O [f] (start c)) = 1).
  Proof.
    intros srcs code w NL PF H. destruct (run_plan E O c srcs _ _ NL H) as (_ & T & X). cbv zeta in *. set (l := plan E [] (files E srcs)) in *.
    rewrite T, reads_app, (quiet_reads (summary O _)), app_nil_r, reads_plan by apply summary_quiet.
    assert (ONE : forall f, In (Some f) l -> (fst (handle_inputs E O [f] (start c)) = 1 <->
       (f_check O = true /\ 0 < changed_queries [Did f c (analysed E O f c)]) \/ (f_validate O = true /\ 0 < invalid_queries [Did f c (analysed E O f c)]))).
    { intros f I. apply plan_in in I as [I _]. destruct (PF f I) as [D F]. destruct (handle_inputs E O [f] (start c)) as [code' w'] eqn:H'.
      destruct (single f code' w' D F H') as (_ & _ & X'). cbn [fst]. rewrite X'.
      destruct (f_check O), (f_validate O); cbn [andb orb]; 
      repeat match goal with |- context [0 <? ?n] => destruct (Nat.ltb_spec 0 n) end; cbn [orb]; split; intros Q; auto; try discriminate; 
        try (destruct Q as [[? ?]|[? ?]]; try discriminate; lia). }
    rewrite X. split.
    - intros Q. assert (Q' : (f_check O = true /\ 0 < changed_queries (map (canon E O c) l)) \/ (f_validate O = true /\ 0 < invalid_queries (map (canon E O c) l))).
      { destruct (f_check O), (f_validate O); cbn [andb orb] in Q;
        repeat match type of Q with context [0 <? ?n] => destruct (Nat.ltb_spec 0 n) end; cbn [orb] in Q; auto; discriminate. }
      destruct Q' as [[A B]|[A B]]; apply sum_exists in B as (s & I & P); apply in_map_iff in I as ([f|] & <- & I);
        try (rewrite sum_one in P; cbn in P; lia); exists f; (split; [apply in_flat_map; exists (Some f); split; [exact I|left; auto]|]);
        apply (ONE f I); cbn [canon] in P; auto.
    - intros (f & I & P). apply in_flat_map in I as ([g|] & I & J); [destruct J as [<-|[]]|destruct J]. apply (ONE g I) in P.
      assert (Q' : (f_check O = true /\ 0 < changed_queries (map (canon E O c) l)) \/ (f_validate O = true /\ 0 < invalid_queries (map (canon E O c) l))).
      { destruct P as [[A B]|[A B]]; [left|right]; (split; [exact A|]); apply sum_exists; exists (Did g c (analysed E O g c));
          (split; [apply in_map_iff; exists (Some g); auto|exact B]). }
      destruct Q' as [[-> B]|[-> B]]; apply Nat.ltb_lt in B; rewrite B; cbn [andb orb]; rewrite ?orb_true_r; reflexivity.
  Qed.

  (** ** The order of the inputs *)
  Definition onames (l : list (option str)) : Prop := forall f g, In (Some f) l -> In (Some g) l -> abspath E f = abspath E g -> f = g.
  Definition odec : forall a b : option str, {a = b} + {a <> b}.
  Proof. decide equality. apply list_eq_dec. apply N.eq_dec. Defined.
  Lemma plan_count_none : forall l seen, count_occ odec (plan E seen l) None = count_occ odec l None.
  Proof.
    induction l as [|[f|] l IH]; intros seen; cbn [plan]; auto.
    - destruct (mem (abspath E f) seen); cbn [count_occ]; [|destruct (odec (Some f) None); [discriminate|]]; rewrite IH; destruct (odec (Some f) None); auto; discriminate.
    - cbn [count_occ]. destruct (odec None None); [|congruence]. rewrite IH. reflexivity.
  Qed.
  Lemma plan_count_some : forall l seen f, onames l ->
    count_occ odec (plan E seen l) (Some f) = if mem (abspath E f) seen then 0 else if in_dec odec (Some f) l then 1 else 0.
  Proof.
    induction l as [|[g|] l IH]; intros seen f ON; cbn [plan].
    - cbn [count_occ]. destruct (mem _ _); reflexivity.
    - assert (ONL : onames l) by (intros x y X Y; apply ON; right; auto).
      destruct (mem (abspath E g) seen) eqn:M.
      + rewrite IH by auto. destruct (mem (abspath E f) seen) eqn:MF; auto.
        destruct (in_dec odec (Some f) l) as [I|I], (in_dec odec (Some f) (Some g :: l)) as [J|J]; auto.
        * exfalso. apply J. right; auto.
        * exfalso. destruct J as [[= ->]|J]; [congruence|auto].
      + cbn [count_occ]. destruct (odec (Some g) (Some f)) as [[= ->]|NE].
        * rewrite IH by auto. rewrite mem_cons, str_eqb_refl, M. cbn [orb].
          destruct (in_dec odec (Some f) (Some f :: l)) as [J|J]; auto. exfalso. apply J. left; auto.
        * rewrite IH by auto. rewrite mem_cons. destruct (str_eqb_spec (abspath E f) (abspath E g)) as [AB|NAB]; cbn [orb].
          -- destruct (mem (abspath E f) seen); auto. destruct (in_dec odec (Some f) (Some g :: l)) as [J|J]; auto.
             exfalso. apply NE. f_equal. apply ON; auto. left; auto.
          -- destruct (mem (abspath E f) seen); auto.
             destruct (in_dec odec (Some f) l) as [I|I], (in_dec odec (Some f) (Some g :: l)) as [J|J]; auto.
             ++ exfalso. apply J. right; auto.
             ++ exfalso. destruct J as [J|J]; auto.
    - cbn [count_occ]. destruct (odec None (Some f)); [discriminate|]. rewrite IH by (intros x y X Y; apply ON; right; auto).
      destruct (mem (abspath E f) seen); auto. destruct (in_dec odec (Some f) l) as [I|I], (in_dec odec (Some f) (None :: l)) as [J|J]; auto.
      + exfalso. apply J. right; auto.
      + exfalso. destruct J as [J|J]; [discriminate|auto].
  Qed.
  Lemma plan_perm : forall l l', Permutation l l' -> onames l -> Permutation (plan E [] l) (plan E [] l').
  Proof.
    intros l l' P ON. apply (Permutation_count_occ odec). assert (ON' : onames l') by (intros f g F G; apply ON; apply (Permutation_in _ (Permutation_sym P)); auto).
    intros [f|].
    - rewrite !plan_count_some by auto. cbn [mem existsb]. destruct (in_dec odec (Some f) l) as [I|I], (in_dec odec (Some f) l') as [J|J]; auto; exfalso.
      + exact (J (Permutation_in _ P I)).
      + exact (I (Permutation_in _ (Permutation_sym P) J)).
    - rewrite !plan_count_none. apply Permutation_count_occ. exact P.
  Qed.
  Lemma list_sum_perm : forall a b, Permutation a b -> list_sum a = list_sum b.
  Proof. unfold list_sum. induction 1; cbn; lia. Qed.
  Lemma sum_perm : forall g a b, Permutation a b -> sum g a = sum g b.
  Proof. intros g a b P. unfold sum. apply list_sum_perm. apply Permutation_map. exact P. Qed.

  Theorem order_free : forall srcs srcs' code w code' w', one_name E srcs -> Permutation (files E srcs) (files E srcs') ->
    handle_inputs E O srcs (start c) = (code, w) -> handle_inputs E O srcs' (start c) = (code', w') ->
    code' = code /\ (forall k, contents w' k = contents w k) /\ Permutation (trace w) (trace w').
  Proof.
    intros srcs srcs' code w code' w' ON P H H'.
    assert (NL : no_links E srcs) by (intros f g F G K; rewrite (ON f g F G (or_intror K)); reflexivity).
    assert (IN : forall f, In (Some f) (files E srcs') -> In (Some f) (files E srcs)) by (intros f; apply (Permutation_in _ (Permutation_sym P))).
    assert (NL' : no_links E srcs') by (intros f g F G K; apply NL; auto).
    destruct (run_plan E O c srcs _ _ NL H) as (C & T & X). destruct (run_plan E O c srcs' _ _ NL' H') as (C' & T' & X'). cbv zeta in *.
    assert (PP : Permutation (plan E [] (files E srcs)) (plan E [] (files E srcs'))) by (apply plan_perm; [exact P|intros f g F G K; apply ON; auto]).
    set (l := plan E [] (files E srcs)) in *. set (l' := plan E [] (files E srcs')) in *.
    assert (PC : Permutation (map (canon E O c) l) (map (canon E O c) l')) by (apply Permutation_map; exact PP).
    split; [|split].
    - rewrite X, X'. unfold changed_queries, invalid_queries. rewrite !(sum_perm _ _ _ PC). reflexivity.
    - intros k. rewrite C, C'. unfold later. destruct (find (at_id E k) l) as [[f|]|] eqn:F.
      + apply find_some in F as [I K]. cbn in K. apply N.eqb_eq in K. subst k.
        assert (D' : distinct E l') by (intros x y XX YY; apply plan_in in XX as [XX _]; apply plan_in in YY as [YY _]; apply NL'; auto).
        rewrite (find_id l' f D' (Permutation_in _ PP I)) by apply plan_nodup. reflexivity.
      + apply find_some in F as [_ K]. discriminate K.
      + destruct (find (at_id E k) l') as [x|] eqn:F'; auto. exfalso. apply find_some in F' as [I K].
        assert (I' : In x l) by (exact (Permutation_in _ (Permutation_sym PP) I)). rewrite (List.find_none _ _ F x I') in K. discriminate K.
    - rewrite T, T'. apply Permutation_app.
      + apply Permutation_flat_map. exact PC.
      + unfold summary, changed_files, changed_queries, invalid_files, invalid_queries. rewrite !(sum_perm _ _ _ PC). apply Permutation_refl.
  Qed.
End Local.
