(** The program's run refines the description in SpecRun. *)
From Verif Require Import PyStr Lib Tokeniser Ast Parser Render Validate Api PyTokens FileHandler SpecVal SpecFile SpecRun.
Local Open Scope str_scope.
Local Open Scope list_scope.

Lemma set_nth_length : forall {A} (l : list A) n x, length (set_nth n x l) = length l.
Proof. induction l; intros [|n] x; cbn; auto. Qed.
Lemma nth_set_nth : forall {A} (l : list A) n x d, n < length l -> nth n (set_nth n x l) d = x.
Proof. induction l; intros [|n] x d H; cbn in *; try lia; auto. apply IHl. lia. Qed.
Lemma nth_set_nth_other : forall {A} (l : list A) n m x d, n <> m -> nth m (set_nth n x l) d = nth m l d.
Proof. induction l; intros [|n] [|m] x d H; cbn; auto; try lia. Qed.

Definition same (a b : list str) : Prop := forall x, mem x a = mem x b.
Lemma mem_sadd : forall x y s, mem x (sadd y s) = str_eqb x y || mem x s.
Proof.
  intros. unfold sadd. destruct (mem y s) eqn:M.
  - destruct (str_eqb_spec x y); subst; auto.
  - unfold mem in *. rewrite existsb_app. cbn. rewrite orb_false_r. apply orb_comm.
Qed.
Lemma mem_sunion : forall x b a, mem x (sunion a b) = mem x a || mem x b.
Proof.
  unfold sunion. induction b as [|y b IH]; intros a; cbn [fold_left]; [cbn; rewrite orb_false_r; auto|].
  rewrite IH, mem_sadd. change (mem x (y :: b)) with (str_eqb x y || mem x b).
  destruct (str_eqb x y), (mem x a), (mem x b); auto.
Qed.
Lemma sadd_nonempty : forall x s, sadd x s <> [].
Proof. intros. unfold sadd. destruct (mem x s) eqn:M; [destruct s; discriminate | destruct s; discriminate]. Qed.

Section Run.
  Variable E : env.
  Variable O : options.
  Notation log := (log E O).
  Notation analysed := (analysed E O).
  Notation after := (after E O).
  Notation events := (events O).
  Notation contents_after := (contents_after E O).

  (** events of a step without the line printed by the except clauses *)
  Definition events0 (f : str) (o : outcome) : list event :=
    match o with
    | Failed e half => ERead f :: match half with Some x => [EWrite f x] | None => [] end
    | Done r => events (Did f (fun _ => []) (Done r))
    end.
  Lemma fold_emit : forall {A} (g : A -> event) l w,
    fold_left (fun w x => emit (g x) w) l w = mk_w (heap w) (contents w) (trace w ++ map g l).
  Proof.
    induction l as [|x l IH]; intros w; cbn.
    - rewrite app_nil_r. destruct w; auto.
    - rewrite IH. unfold emit. cbn. rewrite <- app_assoc. auto.
  Qed.

  Lemma analyse_file_spec : forall f r w S, r < length (heap w) -> same (get_set w r) S ->
    analyse_file E O f r w =
    if mem (abspath E f) S
    then (Ok (mk_info 0 0 0 0 (length (heap w))), mk_w (heap w ++ [[]]) (contents w) (trace w))
    else
      let o := analysed f (contents w) in
      (match o with
       | Failed e _ => Err e
       | Done x => Ok (mk_info (if 0 <? r_changed x then 1 else 0) (r_changed x)
                         (if 0 <? r_invalid x then 1 else 0) (r_invalid x) r)
       end,
       mk_w (set_nth r (sadd (abspath E f) (get_set w r)) (heap w)) (after f (contents w) o)
         (trace w ++ events0 f o)).
  Proof.
    intros f r w S L SM. unfold analyse_file. rewrite (SM (abspath E f)). destruct (mem (abspath E f) S); [reflexivity|].
    unfold analysed, SpecRun.analysed, result. cbn [emit put_set heap contents trace].
    destruct (open_error E f) as [e|]; [reflexivity|].
    destruct (gen_tokens E (contents w (file_id E f))) as [ts eos].
    destruct (compute_file_content (set_order E) _ _ ts eos) as [x|e]; [|reflexivity].
    assert (NI : forall w' a b c d, get_set w' r <> [] -> new_info a b c d (Some r) w' = (mk_info a b c d r, w')).
    { intros w' a b c d N. unfold new_info. destruct (get_set w' r); [contradiction|auto]. }
    assert (GS : forall c t, get_set (mk_w (set_nth r (sadd (abspath E f) (get_set w r)) (heap w)) c t) r <> []).
    { intros c t. unfold get_set. cbn. rewrite nth_set_nth by auto. apply sadd_nonempty. }
    cbv zeta.
    destruct (0 <? r_changed x) eqn:CH; cbn [andb].
    - destruct (f_format O) eqn:FF.
      + destruct (write_error E f) as [[e [l|]]|]; [cbn; rewrite <- ?app_assoc; reflexivity .. |].
        unfold events0, SpecRun.events, after, SpecRun.after. rewrite CH, FF. cbn [andb].
        destruct ((0 <? r_invalid x) && (f_validate O || f_verbose O)) eqn:IV;
        try destruct (f_verbose O); rewrite ?fold_emit; unfold emit; cbn [heap contents trace]; rewrite NI by apply GS;
        rewrite <- ?app_assoc; reflexivity.
      + unfold events0, SpecRun.events, after, SpecRun.after. rewrite CH, FF. cbn [andb].
        destruct (write_error E f) as [[? ?]|]; (
        destruct (f_check O);
        destruct ((0 <? r_invalid x) && (f_validate O || f_verbose O)) eqn:IV;
        try destruct (f_verbose O); rewrite ?fold_emit; unfold emit; cbn [heap contents trace]; rewrite NI by apply GS;
        rewrite <- ?app_assoc; reflexivity).
    - unfold events0, SpecRun.events, after, SpecRun.after. rewrite CH. cbn [andb].
      destruct (write_error E f) as [[? ?]|]; (
      destruct ((0 <? r_invalid x) && (f_validate O || f_verbose O)) eqn:IV;
      try destruct (f_verbose O); rewrite ?fold_emit; unfold emit; cbn [heap contents trace]; rewrite NI by apply GS;
      rewrite <- ?app_assoc; reflexivity).
  Qed.

  (** seen paths after a list of files *)
  Fixpoint seen_after (seen : list str) (l : list (option str)) : list str :=
    match l with
    | [] => seen
    | None :: r => seen_after seen r
    | Some f :: r => if mem (abspath E f) seen then seen_after seen r else seen_after (abspath E f :: seen) r
    end.
  Lemma log_app : forall a b seen c,
    log seen c (a ++ b) = log seen c a ++ log (seen_after seen a) (contents_after c (log seen c a)) b.
  Proof.
    induction a as [|[f|] a IH]; intros b seen c; cbn; auto.
    - destruct (mem (abspath E f) seen); auto. cbn. rewrite IH. auto.
    - rewrite IH. auto.
  Qed.
  Lemma contents_after_app : forall a b c, contents_after c (a ++ b) = contents_after (contents_after c a) b.
  Proof. induction a as [|[|f b' o] a IH]; intros; cbn; auto. Qed.
  Lemma seen_after_app : forall a b seen, seen_after seen (a ++ b) = seen_after (seen_after seen a) b.
  Proof.
    induction a as [|[f|] a IH]; intros b seen; cbn; auto. destruct (mem (abspath E f) seen); auto.
  Qed.
  Lemma log_same : forall l s s' c, same s s' -> log s c l = log s' c l.
  Proof.
    induction l as [|[f|] l IH]; intros s s' c H; cbn; auto.
    - rewrite (H (abspath E f)). destruct (mem (abspath E f) s'); auto. f_equal. apply IH.
      intros x. cbn. f_equal. apply H.
    - f_equal. auto.
  Qed.
  Lemma seen_after_same : forall l s s', same s s' -> same (seen_after s l) (seen_after s' l).
  Proof.
    induction l as [|[f|] l IH]; intros s s' H; cbn; auto.
    rewrite (H (abspath E f)). destruct (mem (abspath E f) s'); auto. apply IH.
    intros x. cbn. f_equal. apply H.
  Qed.

  Definition add (i : info) (l : list step) : info :=
    mk_info (i_cfiles i + changed_files l) (i_csql i + changed_queries l)
      (i_ifiles i + invalid_files l) (i_isql i + invalid_queries l) (i_seen i).
  Lemma sum_app : forall g a b, sum g (a ++ b) = sum g a + sum g b.
  Proof. intros. unfold sum. rewrite map_app, list_sum_app. auto. Qed.
  Lemma sum_done : forall g f c r b, sum g (Did f c (Done r) :: b) = g r + sum g b.
  Proof. reflexivity. Qed.
  Lemma add_app : forall i a b, add i (a ++ b) = add (add i a) b.
  Proof.
    intros. unfold add, changed_files, changed_queries, invalid_files, invalid_queries. cbn. rewrite !sum_app.
    f_equal; lia.
  Qed.

  (** one directory *)
  Lemma dir_loop_spec : forall fs R w S, i_seen R < length (heap w) -> same (get_set w (i_seen R)) S ->
    let l := map Some (filter (endswith ".py") fs) in
    exists w', dir_loop E O fs R w = (add R (log S (contents w) l), w')
    /\ contents w' = contents_after (contents w) (log S (contents w) l)
    /\ trace w' = trace w ++ flat_map events (log S (contents w) l)
    /\ same (get_set w' (i_seen R)) (seen_after S l)
    /\ length (heap w) <= length (heap w')
    /\ (forall k, k < length (heap w) -> k <> i_seen R -> get_set w' k = get_set w k).
  Proof.
    induction fs as [|f fs IH]; intros R w S L SM; cbn [dir_loop filter].
    - cbn. exists w. rewrite app_nil_r. unfold add, sum. cbn. rewrite !Nat.add_0_r. destruct R. auto 10.
    - destruct (endswith ".py" f).
      2:{ apply IH; auto. }
      cbn [map]. rewrite (analyse_file_spec f (i_seen R) w S L SM). cbn [SpecRun.log seen_after].
      destruct (mem (abspath E f) S) eqn:M.
      + (* already seen *)
        unfold info_update. cbn [i_seen i_cfiles i_csql i_ifiles i_isql]. rewrite !Nat.add_0_r.
        set (w1 := put_set _ _ _).
        set (R1 := mk_info _ _ _ _ _).
        assert (R1 = R) as -> by (destruct R; reflexivity).
        assert (L1 : i_seen R < length (heap w1)).
        { subst w1. cbn. rewrite set_nth_length, app_length. cbn. lia. }
        assert (G1 : get_set (mk_w (heap w ++ [[]]) (contents w) (trace w)) (length (heap w)) = []).
        { unfold get_set. cbn. rewrite app_nth2, Nat.sub_diag by lia. auto. }
        assert (G0 : forall k, k < length (heap w) -> get_set (mk_w (heap w ++ [[]]) (contents w) (trace w)) k = get_set w k).
        { intros k Hk. unfold get_set. cbn. rewrite app_nth1; auto. }
        assert (S1 : same (get_set w1 (i_seen R)) S).
        { intros x. subst w1. unfold get_set at 1. cbn [put_set heap]. rewrite nth_set_nth by (rewrite app_length; cbn; lia).
          rewrite G1, G0 by auto. cbn. apply SM. }
        destruct (IH R w1 S L1 S1) as (w' & A1 & A2 & A3 & A4 & A5 & A6).
        exists w'. split; [exact A1|]. subst w1. cbn [contents trace] in *. repeat split; auto.
        * cbn in A5. rewrite set_nth_length, app_length in A5. cbn in A5. lia.
        * intros k Hk Nk. rewrite A6; auto.
          -- unfold get_set at 1. cbn. rewrite nth_set_nth_other by auto. rewrite app_nth1; auto.
          -- cbn. rewrite set_nth_length, app_length. cbn. lia.
      + set (o := analysed f (contents w)). cbv zeta.
        set (w0 := mk_w _ _ _).
        assert (L0 : i_seen R < length (heap w0)) by (subst w0; cbn; rewrite set_nth_length; auto).
        assert (G0 : get_set w0 (i_seen R) = sadd (abspath E f) (get_set w (i_seen R))).
        { subst w0. unfold get_set at 1. cbn. apply nth_set_nth. auto. }
        assert (GO : forall k, k <> i_seen R -> get_set w0 k = get_set w k).
        { intros k Nk. subst w0. unfold get_set at 1. cbn. apply nth_set_nth_other. auto. }
        assert (S0 : same (get_set w0 (i_seen R)) (abspath E f :: S)).
        { intros x. rewrite G0, mem_sadd. cbn. f_equal. apply SM. }
        assert (LH : length (heap w0) = length (heap w)) by (subst w0; cbn; apply set_nth_length).
        destruct o as [e half|x] eqn:EO.
        * (* failed *)
          assert (RP : report f e w0 = mk_w (heap w0) (contents w0)
             (trace w0 ++ [match e with RecursionError => EPrint ("could not analyse " ++ f) | _ => EPrintExn f e end])).
          { destruct e; reflexivity. }
          rewrite RP.
          destruct (IH R (mk_w (heap w0) (contents w0) (trace w0 ++ [match e with RecursionError => EPrint ("could not analyse " ++ f) | _ => EPrintExn f e end]))
             (abspath E f :: S) L0 S0) as (w' & A1 & A2 & A3 & A4 & A5 & A6).
          exists w'. cbn [contents trace heap] in *. split; [|split; [|split; [|split; [|split]]]]; auto.
          -- rewrite A3. subst w0. cbn [trace contents flat_map]. unfold events0, SpecRun.events.
             rewrite <- !app_assoc. cbn. rewrite <- !app_assoc. reflexivity.
          -- lia.
          -- intros k Hk Nk. rewrite A6; auto; [|lia]. apply (GO k Nk).
        * (* done *)
          unfold info_update. cbn [i_seen i_cfiles i_csql i_ifiles i_isql].
          set (R1 := mk_info _ _ _ _ _). set (w1 := put_set _ _ _).
          assert (L1 : i_seen R1 < length (heap w1)).
          { subst w1 R1. cbn [put_set heap i_seen]. rewrite set_nth_length. auto. }
          assert (S1 : same (get_set w1 (i_seen R1)) (abspath E f :: S)).
          { intros y. subst w1 R1. unfold get_set at 1. cbn [i_seen put_set heap]. rewrite nth_set_nth by auto.
            rewrite mem_sunion, orb_diag. apply S0. }
          destruct (IH R1 w1 _ L1 S1) as (w' & A1 & A2 & A3 & A4 & A5 & A6).
          exists w'. assert (C1 : contents w1 = after f (contents w) (Done x)) by reflexivity.
          rewrite C1 in *. split; [|split; [|split; [|split; [|split]]]]; auto.
          -- rewrite A1. f_equal. subst R1. unfold add, changed_files, changed_queries, invalid_files, invalid_queries.
             cbn [i_cfiles i_csql i_ifiles i_isql i_seen].
             rewrite !sum_done. f_equal; lia.
          -- rewrite A3. subst w1 w0. cbn [trace put_set]. unfold events0. rewrite <- app_assoc. reflexivity.
          -- subst w1. cbn [put_set heap] in A5. rewrite set_nth_length in A5. lia.
          -- intros k Hk Nk. rewrite A6; auto.
             ++ subst w1. unfold get_set at 1. cbn [put_set heap]. rewrite nth_set_nth_other by auto. apply (GO k Nk).
             ++ subst w1. cbn [put_set heap]. rewrite set_nth_length. lia.
  Qed.

  Definition zero (r : nat) : info := mk_info 0 0 0 0 r.
  Lemma get_app : forall w k c t y, k < length (heap w) -> get_set (mk_w (heap w ++ y) c t) k = get_set w k.
  Proof. intros. unfold get_set. cbn. apply app_nth1. auto. Qed.

  Lemma get_new : forall h c t, get_set (mk_w (h ++ [[]]) c t) (length h) = [].
  Proof. intros. unfold get_set. cbn. rewrite app_nth2, Nat.sub_diag by lia. auto. Qed.

  Lemma one_spec : forall s r w S, r < length (heap w) -> same (get_set w r) S ->
    let l := log S (contents w) (files_of E s) in
    exists i w', handle_one_input E O s r w = (i, w')
    /\ i = add (zero (i_seen i)) l
    /\ contents w' = contents_after (contents w) l
    /\ trace w' = trace w ++ flat_map events l
    /\ same (get_set w' r ++ get_set w' (i_seen i)) (seen_after S (files_of E s))
    /\ length (heap w) <= length (heap w').
  Proof.
    intros s r w S L SM. unfold handle_one_input, files_of.
    assert (MA : forall x (a b : list str), mem x (a ++ b) = mem x a || mem x b) by (intros; apply existsb_app).
    destruct (isdir E s).
    - unfold analyse_dir. destruct (get_set w r) as [|y g] eqn:G.
      + cbn [new_set]. unfold new_info. cbn [heap].
        assert (get_set (mk_w (heap w ++ [[]]) (contents w) (trace w)) (length (heap w)) = []) as ->.
        { unfold get_set. cbn. rewrite app_nth2, Nat.sub_diag by lia. auto. }
        cbn [new_set heap contents trace].
        set (w0 := mk_w ((heap w ++ [[]]) ++ [[]]) _ _).
        set (R0 := mk_info 0 0 0 0 (length (heap w ++ [[]]))).
        assert (L0 : i_seen R0 < length (heap w0)) by (subst w0 R0; cbn; rewrite !app_length; cbn; lia).
        assert (S0 : same (get_set w0 (i_seen R0)) S).
        { intros x. rewrite <- SM. subst w0 R0. unfold get_set. cbn. rewrite app_nth2, Nat.sub_diag by lia. auto. }
        destruct (dir_loop_spec (walk E s) R0 w0 S L0 S0) as (w' & A1 & A2 & A3 & A4 & A5 & A6).
        exists (add R0 (log S (contents w0) (map Some (filter (endswith ".py") (walk E s))))), w'.
        split; [exact A1|]. split; [reflexivity|]. split; [exact A2|]. split; [exact A3|]. split.
        * intros x. rewrite MA. rewrite (A6 r).
          -- subst w0. unfold get_set at 1. cbn [heap]. rewrite app_nth1 by (rewrite app_length; lia).
             rewrite app_nth1 by lia. fold (get_set w r). rewrite G. cbn. apply A4.
          -- subst w0. cbn. rewrite !app_length. lia.
          -- subst R0. cbn. rewrite app_length. cbn. lia.
        * subst w0. cbn in A5. rewrite !app_length in A5. lia.
      + unfold new_info. rewrite G. rewrite <- G in SM.
        destruct (dir_loop_spec (walk E s) (zero r) w S L SM) as (w' & A1 & A2 & A3 & A4 & A5 & A6).
        exists (add (zero r) (log S (contents w) (map Some (filter (endswith ".py") (walk E s))))), w'.
        split; [exact A1|]. split; [reflexivity|]. split; [exact A2|]. split; [exact A3|]. split; auto.
        intros x. rewrite MA. cbn [i_seen add zero]. cbn [i_seen zero] in A4. rewrite (A4 x). apply orb_diag.
    - destruct (isfile E s).
      + rewrite (analyse_file_spec s r w S L SM). cbn [SpecRun.log seen_after].
        destruct (mem (abspath E s) S) eqn:M.
        * eexists _, _. split; [reflexivity|]. split; [reflexivity|]. cbn [contents trace heap i_seen SpecRun.contents_after flat_map]. rewrite app_nil_r.
          split; [auto|]. split; [auto|]. split.
          -- intros x. rewrite MA, get_app by auto. rewrite get_new. cbn. rewrite orb_false_r. apply SM.
          -- rewrite app_length. lia.
        * cbv zeta. destruct (analysed s (contents w)) as [e half|x] eqn:EO.
          -- set (w0 := mk_w _ _ _).
             assert (RP : report s e w0 = mk_w (heap w0) (contents w0)
               (trace w0 ++ [match e with RecursionError => EPrint ("could not analyse " ++ s) | _ => EPrintExn s e end])).
             { destruct e; reflexivity. }
             rewrite RP. cbn [empty_info new_info new_set heap contents trace].
             eexists _, _. split; [reflexivity|]. split; [reflexivity|]. cbn [contents trace heap i_seen].
             split; [reflexivity|]. split; [|split].
             ++ subst w0. cbn [trace flat_map]. unfold events0, SpecRun.events. rewrite <- !app_assoc. cbn.
                rewrite <- ?app_assoc, ?app_nil_r. reflexivity.
             ++ intros y. rewrite MA, get_new. unfold get_set at 1. cbn [heap].
                subst w0. cbn [heap]. rewrite app_nth1 by (rewrite set_nth_length; auto). rewrite nth_set_nth by auto.
                rewrite mem_sadd. cbn. rewrite orb_false_r. f_equal. apply SM.
             ++ rewrite app_length. subst w0. cbn [heap]. rewrite set_nth_length. lia.
          -- eexists _, _. split; [reflexivity|]. split.
             { unfold add, changed_files, changed_queries, invalid_files, invalid_queries. rewrite !sum_done.
               unfold sum. cbn. rewrite !Nat.add_0_r. reflexivity. }
             cbn [contents trace heap i_seen]. split; [reflexivity|]. split; [|split].
             ++ cbn [flat_map]. rewrite app_nil_r. reflexivity.
             ++ intros y. rewrite MA, orb_diag. unfold get_set at 1. cbn [heap]. rewrite nth_set_nth by auto.
                rewrite mem_sadd. cbn. f_equal. apply SM.
             ++ rewrite set_nth_length. auto.
      + cbn [empty_info new_info new_set emit heap contents trace]. eexists _, _. split; [reflexivity|]. split; [reflexivity|].
        cbn [contents trace heap i_seen SpecRun.log SpecRun.contents_after flat_map SpecRun.events app].
        split; [auto|]. split; [auto|]. split; [|rewrite app_length; lia].
        intros x. rewrite MA, get_app by auto. rewrite get_new. cbn. rewrite orb_false_r. apply SM.
  Qed.

  Lemma loop_spec : forall srcs i w S, i_seen i < length (heap w) -> same (get_set w (i_seen i)) S ->
    let l := log S (contents w) (files E srcs) in
    exists w', inputs_loop E O srcs i w = (add i l, w')
    /\ contents w' = contents_after (contents w) l
    /\ trace w' = trace w ++ flat_map events l.
  Proof.
    induction srcs as [|s srcs IH]; intros i w S L SM.
    - exists w. cbn. rewrite app_nil_r. unfold add, sum. cbn. rewrite !Nat.add_0_r. destruct i. auto.
    - cbn [inputs_loop files flat_map]. destruct (one_spec s (i_seen i) w S L SM) as (j & w1 & A1 & A2 & A3 & A4 & A5 & A6).
      rewrite A1. unfold info_update. set (w2 := put_set _ _ _). set (i2 := mk_info _ _ _ _ _).
      assert (L2 : i_seen i2 < length (heap w2)).
      { subst w2 i2. cbn [i_seen put_set heap]. rewrite set_nth_length. lia. }
      assert (S2 : same (get_set w2 (i_seen i2)) (seen_after S (files_of E s))).
      { intros x. rewrite <- A5. subst w2 i2. unfold get_set at 1. cbn [i_seen put_set heap].
        rewrite nth_set_nth by lia. rewrite mem_sunion. unfold mem. rewrite existsb_app. auto. }
      destruct (IH i2 w2 _ L2 S2) as (w' & B1 & B2 & B3).
      exists w'. rewrite log_app. cbn [contents trace put_set] in *. subst w2. cbn [put_set contents trace] in *.
      rewrite A3 in *. split; [|split].
      + rewrite B1. rewrite add_app. f_equal. f_equal. subst i2. rewrite A2. unfold add. cbn. reflexivity.
      + rewrite contents_after_app. exact B2.
      + rewrite B3, A4, flat_map_app, <- app_assoc. reflexivity.
  Qed.

  Theorem run_refines : forall srcs c,
    let l := log [] c (files E srcs) in
    let '(code, w) := handle_inputs E O srcs (start c) in
    contents w = contents_after c l
    /\ trace w = flat_map events l ++ summary O l
    /\ code = if (f_check O && (0 <? changed_queries l)) || (f_validate O && (0 <? invalid_queries l)) then 1 else 0.
  Proof.
    intros srcs c. unfold handle_inputs, start. cbn [empty_info new_info new_set heap app length].
    destruct (loop_spec srcs (zero 0) (mk_w [[]] c []) []) as (w & A1 & A2 & A3);
      [cbn; lia | intros x; reflexivity |].
    cbn [contents trace app] in *. unfold zero in A1. rewrite A1. cbn [add i_cfiles i_csql i_ifiles i_isql].
    rewrite !Nat.add_0_l. unfold summary.
    destruct (f_format O || f_check O), (f_validate O); cbn [emit contents trace app]; rewrite A2, A3, <- ?app_assoc, ?app_nil_r; auto.
  Qed.
End Run.
