(** C57: --check-format announces what --format does. *)
From Verif Require Import PyStr Lib Tokeniser Ast Parser Render Validate Api PyTokens FileHandler Args SpecVal SpecFile SpecRun SpecArgs
  ProofFile ProofFile2 ProofRun ProofRun2 ProofArgs4 SpecModes ProofModes.
From Coq Require Import Permutation.
Local Open Scope str_scope.
Local Open Scope list_scope.

Definition plain (e : event) : Prop := (forall f x, e <> EWrite f x) /\ (forall x, e <> EPrint ("would reformat " ++ x)).
Lemma announces_app : forall a b a' b', announces a b -> announces a' b' -> announces (a ++ a') (b ++ b').
Proof. induction 1; intros H'; cbn [app]; auto; constructor; auto. Qed.
Lemma announces_plain : forall t, Forall plain t -> announces t t.
Proof. induction 1 as [|e t [A B] _ IH]; constructor; auto. Qed.

Section Announce.
  Variable E : env.
  Variables v w : bool.
  Let Oc : options := mk_opts false true v w.
  Let Of : options := mk_opts true false v w.

  Lemma analysed_modes : forall f c, write_error E f = None -> analysed E Of f c = analysed E Oc f c.
  Proof.
    intros f c H. unfold analysed, result. rewrite H. cbn [f_format f_check f_validate f_verbose orb Oc Of].
    destruct (open_error E f); auto. destruct (gen_tokens E _) as [ts eos]. destruct (compute_file_content _ _ _ _ _); auto.
    destruct (_ && true), (_ && false); auto.
  Qed.
  Lemma plain_print : forall c x, c <> 119%N -> plain (EPrint (c :: x)).
  Proof. intros c x H. split; [discriminate|]. intros y K. injection K as -> _. auto. Qed.
  Lemma analysed_whole : forall O f c e x, write_error E f = None -> analysed E O f c = Failed e x -> x = None.
  Proof.
    intros O f c e x H A. unfold analysed in A. rewrite H in A. destruct (open_error E f); [injection A as _ <-; auto|].
    destruct (result E O f c); [|injection A as _ <-; auto]. destruct (_ && _); discriminate.
  Qed.
  Lemma step_announces : forall c x, (forall f, x = Some f -> write_error E f = None) ->
    announces (events Oc (canon E Oc c x)) (events Of (canon E Of c x)).
  Proof.
    intros c [f|] W.
    - specialize (W f eq_refl). cbn [canon]. rewrite (analysed_modes f c W). destruct (analysed E Oc f c) as [e h|r] eqn:A.
      + rewrite (analysed_whole _ _ _ _ _ W A). apply announces_plain. constructor; [split; discriminate|]. constructor; [|constructor].
        destruct e; split; discriminate.
      + cbn [events f_format f_check f_validate f_verbose Oc Of]. constructor; [discriminate|discriminate|].
        apply announces_app.
        * destruct (0 <? r_changed r); [|constructor]. apply announces_file. constructor.
        * apply announces_plain. destruct (_ && _); [|constructor]. constructor; [apply plain_print; discriminate|].
          destruct w; [|constructor]. apply Forall_forall. intros y I. apply in_map_iff in I as (l & <- & _). apply plain_print. discriminate.
    - apply announces_plain. constructor; [|constructor]. apply plain_print. discriminate.
  Qed.
  Lemma canon_modes : forall c l, (forall f, In (Some f) l -> write_error E f = None) -> map (canon E Of c) l = map (canon E Oc c) l.
  Proof.
    intros c l H. apply map_ext_in. intros [f|] I; cbn [canon]; auto. rewrite analysed_modes; auto.
  Qed.
  Lemma writes_one : forall c x, (forall f, x = Some f -> write_error E f = None) ->
    (writes (events Of (canon E Of c x)) = [] <-> match canon E Of c x with Did _ _ (Done r) => r_changed r | _ => 0 end = 0).
  Proof.
    intros c [f|] W; [|cbn; tauto]. specialize (W f eq_refl). cbn [canon].
    destruct (events_shape Of f c (analysed E Of f c)) as (ww & p & -> & Q & SH).
    change (ERead f :: ww ++ p) with ([ERead f] ++ ww ++ p). rewrite !writes_app, (quiet_writes p Q), app_nil_r. cbn [writes flat_map app].
    subst ww. destruct (analysed E Of f c) as [e h|r] eqn:A.
    - rewrite (analysed_whole _ _ _ _ _ W A). cbn. tauto.
    - cbn [f_format Of]. rewrite andb_true_r. destruct (Nat.ltb_spec 0 (r_changed r)); cbn; split; intros K; auto; try lia; discriminate.
  Qed.
  Lemma writes_changed : forall c l, (forall f, In (Some f) l -> write_error E f = None) ->
    (writes (flat_map (events Of) (map (canon E Of c) l)) = [] <-> changed_queries (map (canon E Of c) l) = 0).
  Proof.
    intros c l. induction l as [|x l IH]; intros W; [cbn; tauto|]. cbn [map flat_map]. rewrite writes_app.
    assert (IH' := IH (fun f I => W f (or_intror I))). clear IH.
    assert (ONE := writes_one c x (fun f K => W f (or_introl K))).
    set (g := fun s => match s with Did _ _ (Done r) => r_changed r | _ => 0 end).
    change (changed_queries (canon E Of c x :: map (canon E Of c) l)) with (g (canon E Of c x) + changed_queries (map (canon E Of c) l)).
    change (match canon E Of c x with Did _ _ (Done r) => r_changed r | _ => 0 end) with (g (canon E Of c x)) in ONE.
    split.
    - intros K. apply app_eq_nil in K as [K1 K2]. apply ONE in K1. apply IH' in K2. rewrite K1, K2. reflexivity.
    - intros K. apply Nat.eq_add_0 in K as [K1 K2]. rewrite (proj2 ONE K1), (proj2 IH' K2). reflexivity.
  Qed.

  Theorem announced : forall srcs c code1 w1 code2 w2, no_links E srcs -> (forall f, In (Some f) (files E srcs) -> write_error E f = None) ->
    handle_inputs E Oc srcs (start c) = (code1, w1) -> handle_inputs E Of srcs (start c) = (code2, w2) ->
    (exists t1 t2 n u s, trace w1 = t1 ++ EPrint (n ++ " would be reformatted" ++ u) :: s
       /\ trace w2 = t2 ++ EPrint (n ++ " reformatted" ++ u) :: s /\ announces t1 t2)
    /\ (code1 = 1 <-> writes (trace w2) <> [] \/ code2 = 1).
  Proof.
    intros srcs c code1 w1 code2 w2 NL W H1 H2.
    destruct (run_plan E Oc c srcs _ _ NL H1) as (_ & T1 & X1). destruct (run_plan E Of c srcs _ _ NL H2) as (_ & T2 & X2). cbv zeta in *.
    set (l := plan E [] (files E srcs)) in *.
    assert (WL : forall f, In (Some f) l -> write_error E f = None) by (intros f I; apply plan_in in I as [I _]; auto).
    assert (CM := canon_modes c l WL).
    split.
    - rewrite T1, T2. assert (S2 : summary Of (map (canon E Of c) l) = summary Of (map (canon E Oc c) l)) by (rewrite CM; reflexivity).
      rewrite S2. clear S2. unfold summary. cbn [f_format f_check f_validate f_verbose orb Oc Of app].
      assert (AN : announces (flat_map (events Oc) (map (canon E Oc c) l)) (flat_map (events Of) (map (canon E Of c) l))).
      { clear - WL. induction l as [|x l IH]; [constructor|]. cbn [map flat_map]. apply announces_app.
        - apply step_announces. intros f ->. apply WL. left; auto.
        - apply IH. intros f I. apply WL. right; auto. }
      set (l1 := map (canon E Oc c) l) in *. unfold format_summary. destruct (0 <? changed_queries l1).
      + eexists _, _, (str_of_nat (changed_files l1) ++ " file" ++ (if 1 <? changed_files l1 then "s" else "")),
          (" (" ++ str_of_nat (changed_queries l1) ++ " changed SQL queries)."), _.
        split; [|split; [|exact AN]]; rewrite <- ?app_assoc; reflexivity.
      + eexists _, _, "No file", ".", _. split; [|split; [|exact AN]]; reflexivity.
    - rewrite T2, writes_app, (quiet_writes (summary Of _)), app_nil_r by apply summary_quiet. rewrite (writes_changed c l WL).
      rewrite X1, X2. cbn [f_format f_check f_validate f_verbose andb orb Oc Of]. rewrite <- CM.
      destruct (Nat.ltb_spec 0 (changed_queries (map (canon E Of c) l))) as [K|K]; cbn [orb].
      + split; intros; [left; lia|reflexivity].
      + split; [right; auto|]. intros [B|B]; [lia|auto].
  Qed.
End Announce.

Theorem announced_program : forall E v w argv1 argv2 srcs c code1 w1 code2 w2,
  command argv1 srcs (mk_opts false true v w) -> command argv2 srcs (mk_opts true false v w) ->
  no_links E srcs -> (forall f, In (Some f) (files E srcs) -> write_error E f = None) ->
  program E argv1 (start c) = (code1, w1) -> program E argv2 (start c) = (code2, w2) ->
  (exists t1 t2 n u s, trace w1 = t1 ++ EPrint (n ++ " would be reformatted" ++ u) :: s
     /\ trace w2 = t2 ++ EPrint (n ++ " reformatted" ++ u) :: s /\ announces t1 t2)
  /\ (code1 = 1 <-> writes (trace w2) <> [] \/ code2 = 1).
Proof.
  intros E v w argv1 argv2 srcs c code1 w1 code2 w2 C1 C2 NL W H1 H2.
  rewrite (run_handled E _ _ _ _ C1) in H1 by (cbn; auto). rewrite (run_handled E _ _ _ _ C2) in H2 by (cbn; auto).
  eapply announced; eauto.
Qed.
