(** Consequences of the refinement: C27-C29, C35-C37. *)
From Verif Require Import PyStr Lib Tokeniser Ast Parser Render Validate Api PyTokens FileHandler SpecVal SpecFile SpecRun
  ProofFile ProofFile2 ProofRun.
Local Open Scope str_scope.
Local Open Scope list_scope.

Section Run.
  Variable E : env.
  Variable O : options.
  Notation log := (log E O).
  Notation analysed := (analysed E O).
  Notation after := (after E O).
  Notation events := (events O).
  Notation contents_after := (contents_after E O).
  Notation replay := (replay E).

  (** a log entry tells the truth about what was analysed *)
  Fixpoint true_log (c : N -> str) (l : list step) : Prop :=
    match l with
    | [] => True
    | Invalid :: r => true_log c r
    | Did f b o :: r => b = c /\ o = analysed f c /\ true_log (after f c o) r
    end.
  Lemma log_true : forall l seen c, true_log c (log seen c l).
  Proof.
    induction l as [|[f|] l IH]; intros seen c; cbn; auto.
    destruct (mem (abspath E f) seen); auto. cbn. auto.
  Qed.

  Lemma replay_app : forall a b c, replay c (a ++ b) = replay (replay c a) b.
  Proof. induction a as [|[]]; intros; cbn; auto. Qed.
  Lemma reads_app : forall a b, reads (a ++ b) = reads a ++ reads b.
  Proof. intros. unfold reads. apply flat_map_app. Qed.
  Lemma writes_app : forall a b, writes (a ++ b) = writes a ++ writes b.
  Proof. intros. unfold writes. apply flat_map_app. Qed.
  Lemma results_app : forall a b c, results E O c (a ++ b) = results E O c a ++ results E O (replay c a) b.
  Proof. induction a as [|[]]; intros; cbn; auto. rewrite IHa. apply app_assoc. Qed.

  (** events that are only printed *)
  Definition quiet (e : event) : Prop := match e with ERead _ | EWrite _ _ => False | _ => True end.
  Lemma quiet_replay : forall t c, Forall quiet t -> replay c t = c.
  Proof. induction t as [|[]]; intros c H; inversion H; subst; cbn in *; auto; contradiction. Qed.
  Lemma quiet_reads : forall t, Forall quiet t -> reads t = [].
  Proof. induction t as [|[]]; intros H; inversion H; subst; cbn in *; auto; contradiction. Qed.
  Lemma quiet_writes : forall t, Forall quiet t -> writes t = [].
  Proof. induction t as [|[]]; intros H; inversion H; subst; cbn in *; auto; contradiction. Qed.
  Lemma quiet_results : forall t c, Forall quiet t -> results E O c t = [].
  Proof. induction t as [|[]]; intros c H; inversion H; subst; cbn in *; auto; contradiction. Qed.
  Lemma summary_quiet : forall l, Forall quiet (summary O l).
  Proof.
    intros. unfold summary. apply Forall_app. split; [destruct (f_format O || f_check O) | destruct (f_validate O)];
      repeat constructor.
  Qed.
  Lemma locs_quiet : forall {A} (g : A -> str) l, Forall quiet (map (fun x => EPrint (g x)) l).
  Proof. induction l; cbn; constructor; cbn; auto. Qed.
  (** shape of the events of one file *)
  Lemma events_shape : forall f c o, exists w p, events (Did f c o) = ERead f :: w ++ p
    /\ Forall quiet p
    /\ w = match o with
           | Failed _ None => []
           | Failed _ (Some x) => [EWrite f x]
           | Done r => if (0 <? r_changed r) && f_format O then [EWrite f (r_content r)] else []
           end.
  Proof.
    intros f c [e [x|]|r]; cbn [SpecRun.events].
    - eexists _, [_]. split; [reflexivity|]. split; auto. repeat constructor. destruct e; cbn; auto.
    - eexists [], [_]. split; [reflexivity|]. split; auto. repeat constructor. destruct e; cbn; auto.
    - set (I := if (0 <? r_invalid r) && (f_validate O || f_verbose O) then _ else _).
      assert (QI : Forall quiet I).
      { subst I. destruct ((0 <? r_invalid r) && _); auto. constructor; cbn; auto.
        destruct (f_verbose O); auto. apply locs_quiet. }
      destruct (0 <? r_changed r); [destruct (f_format O); [|destruct (f_check O)]|].
      + exists [EWrite f (r_content r)], (EPrint (message "reformatted" f (r_changed r)) :: I).
        split; [reflexivity|]. split; auto. constructor; cbn; auto.
      + exists [], (EPrint (message "would reformat" f (r_changed r)) :: I).
        split; [reflexivity|]. split; auto. constructor; cbn; auto.
      + exists [], I. auto.
      + exists [], I. auto.
  Qed.
  Lemma events_replay : forall f c o, replay c (events (Did f c o)) = after f c o.
  Proof.
    intros. destruct (events_shape f c o) as (w & p & -> & Q & W). cbn. rewrite replay_app, (quiet_replay p) by auto.
    subst w. destruct o as [e [x|]|r]; cbn; auto. destruct (_ && _); cbn; auto.
  Qed.
  Lemma log_replay : forall l c, true_log c l -> replay c (flat_map events l) = contents_after c l.
  Proof.
    induction l as [|[|f b o] l IH]; intros c T; cbn [flat_map]; auto.
    - rewrite replay_app. cbn. auto.
    - cbn in T. destruct T as (-> & _ & T). rewrite replay_app, events_replay. cbn. auto.
  Qed.
  Lemma results_log : forall l c, true_log c l ->
    results E O c (flat_map events l) = flat_map (fun s => match s with Did _ _ (Done r) => [r] | _ => [] end) l.
  Proof.
    induction l as [|[|f b o] l IH]; intros c T; cbn [flat_map]; auto.
    { rewrite results_app. cbn. auto. }
    cbn in T. destruct T as (-> & OO & T). rewrite results_app, events_replay, IH by auto. f_equal.
    destruct (events_shape f c o) as (w & p & -> & Q & W). cbn. rewrite <- OO.
    rewrite results_app, (quiet_results p) by auto. rewrite app_nil_r.
    assert (results E O c w = []) as ->.
    { subst w. destruct o as [e [x|]|r]; cbn; auto. destruct (_ && _); auto. }
    rewrite app_nil_r. destruct o; auto.
  Qed.
  Lemma sum_results : forall g l c, true_log c l ->
    sum g l = list_sum (map g (results E O c (flat_map events l))).
  Proof.
    intros g l c T. rewrite results_log by auto. unfold sum. clear T. induction l as [|[|f b [e h|r]] l IH]; cbn; auto.
  Qed.
  Lemma reads_events : forall f c o, reads (events (Did f c o)) = [f].
  Proof.
    intros. destruct (events_shape f c o) as (w & p & -> & Q & W). cbn. rewrite reads_app, (quiet_reads p) by auto.
    subst w. destruct o as [e [x|]|r]; cbn; auto. destruct (_ && _); auto.
  Qed.

  (** ** what was read *)
  Lemma reads_log : forall l seen c,
    NoDup (map (abspath E) (reads (flat_map events (log seen c l))))
    /\ (forall f, In f (reads (flat_map events (log seen c l))) -> mem (abspath E f) seen = false /\ In (Some f) l)
    /\ (forall f, In (Some f) l -> mem (abspath E f) seen = true
          \/ exists g, In g (reads (flat_map events (log seen c l))) /\ abspath E g = abspath E f).
  Proof.
    induction l as [|[f|] l IH]; intros seen c; cbn [SpecRun.log].
    - cbn. split; [constructor|]. split; intros f [].
    - destruct (mem (abspath E f) seen) eqn:M.
      + destruct (IH seen c) as (A & B & C). split; auto. split.
        * intros g G. destruct (B g G). split; auto. right; auto.
        * intros g [G|G]; auto. injection G as <-. auto.
      + cbv zeta. cbn [flat_map]. rewrite reads_app, reads_events. cbn [app map].
        destruct (IH (abspath E f :: seen) (after f c (analysed f c))) as (A & B & C). split; [|split].
        * constructor; auto. intros I. apply in_map_iff in I as (g & Eg & G). destruct (B g G) as [X _].
          cbn in X. rewrite Eg, str_eqb_refl in X. discriminate.
        * intros g [<-|G]; [split; auto; left; auto|]. destruct (B g G) as [X Y]. split; [|right; auto].
          cbn in X. apply orb_false_iff in X. tauto.
        * intros g [G|G]; [injection G as <-; right; exists f; split; auto; left; auto|].
          destruct (C g G) as [X|(h & H1 & H2)].
          -- cbn in X. apply orb_true_iff in X as [X|X]; auto. apply str_eqb_eq in X.
             right. exists f. split; auto. left; auto.
          -- right. exists h. split; auto. right; auto.
    - destruct (IH seen c) as (A & B & C). cbn [flat_map app]. cbn [SpecRun.events reads flat_map app] in *.
      split; auto. split.
      + intros g G. destruct (B g G). split; auto. right; auto.
      + intros g [G|G]; [discriminate|auto].
  Qed.

  (** ** a place in the trace of a log *)
  Lemma in_events_split : forall l pre e post, flat_map events l = pre ++ e :: post ->
    exists l1 s l2 a b, l = l1 ++ s :: l2 /\ events s = a ++ e :: b /\ pre = flat_map events l1 ++ a
      /\ post = b ++ flat_map events l2.
  Proof.
    induction l as [|s l IH]; intros pre e post H; cbn in H; [destruct pre; discriminate|].
    assert (C : (exists b, events s = pre ++ e :: b /\ post = b ++ flat_map events l)
                \/ (exists a, pre = events s ++ a /\ flat_map events l = a ++ e :: post)).
    { clear IH. revert pre H. generalize (events s). induction l0 as [|x l0 IH]; intros pre H.
      - right. exists pre. auto.
      - destruct pre as [|y pre]; cbn in H.
        + injection H as -> <-. left. exists l0. auto.
        + injection H as -> H. destruct (IH pre H) as [(b & E1 & E2)|(a & E1 & E2)].
          * left. exists b. rewrite E1. auto.
          * right. exists a. rewrite E1. auto. }
    destruct C as [(b & E1 & E2)|(a & E1 & E2)].
    - exists [], s, l, pre, b. auto.
    - destruct (IH a e post E2) as (l1 & s' & l2 & a' & b' & -> & H1 & -> & ->).
      exists (s :: l1), s', l2, a', b'. cbn. rewrite E1, app_assoc. auto.
  Qed.
  Lemma true_log_split : forall l1 s l2 c, true_log c (l1 ++ s :: l2) ->
    true_log c l1 /\ true_log (contents_after c l1) (s :: l2).
  Proof.
    induction l1 as [|[|f b o] l1 IH]; intros s l2 c H.
    - split; [exact I|exact H].
    - exact (IH _ _ _ H).
    - cbn in H. destruct H as (-> & -> & H). destruct (IH _ _ _ H). cbn. auto.
  Qed.
  Lemma app_quiet_split : forall t q pre e post, Forall quiet q -> ~ quiet e -> t ++ q = pre ++ e :: post ->
    exists post', t = pre ++ e :: post' /\ post = post' ++ q.
  Proof.
    induction t as [|x t IH]; intros q pre e post Q N H; cbn in H.
    - subst q. apply Forall_app in Q as [_ Q]. inversion Q. contradiction.
    - destruct pre as [|y pre]; cbn in H; injection H as -> H.
      + exists t. auto.
      + destruct (IH q pre e post Q N H) as (p & -> & ->). exists p. auto.
  Qed.

  (** ** C27 *)
  Lemma writes_log : forall l c f x pre post, true_log c l ->
    flat_map events l = pre ++ EWrite f x :: post ->
    f_format O = true /\ exists pre' r, pre = pre' ++ [ERead f] /\ open_error E f = None
      /\ result E O f (replay c pre) = Ok r /\ 0 < r_changed r
      /\ (x = r_content r /\ write_error E f = None \/ exists e, write_error E f = Some (e, Some x)).
  Proof.
    intros l c f x pre post T H.
    destruct (in_events_split _ _ _ _ H) as (l1 & s & l2 & a & b & -> & ES & -> & ->).
    destruct (true_log_split _ _ _ _ T) as [T1 T2].
    destruct s as [|g d o].
    { cbn in ES. destruct a as [|? [|? ?]]; cbn in ES; discriminate. }
    cbn in T2. destruct T2 as (-> & OO & _).
    destruct (events_shape g (contents_after c l1) o) as (w & p & EV & Q & W). rewrite EV in ES.
    change (ERead g :: w ++ p) with ((ERead g :: w) ++ p) in ES.
    apply app_quiet_split in ES as (b' & ES & ->); auto.
    assert (X : w = [EWrite f x] /\ a = [ERead f] /\ g = f).
    { destruct o as [e [y|]|r]; [| |destruct ((0 <? r_changed r) && f_format O)]; subst w;
        destruct a as [|? [|? [|? ?]]]; cbn in ES; try discriminate; injection ES; intros; subst; auto. }
    destruct X as (WW & -> & ->).
    rewrite replay_app. cbn [SpecRun.replay]. rewrite log_replay by auto.
    unfold SpecRun.analysed in OO.
    destruct (open_error E f); [subst o; rewrite WW in W; discriminate|].
    destruct (result E O f (contents_after c l1)) as [r|e] eqn:R; [|subst o; rewrite WW in W; discriminate].
    destruct ((0 <? r_changed r) && f_format O) eqn:CH.
    - apply andb_true_iff in CH as [C1 C2]. split; auto. exists (flat_map events l1), r.
      split; auto. split; auto. split; auto. apply Nat.ltb_lt in C1. split; auto.
      destruct (write_error E f) as [[e h]|]; subst o; rewrite WW in W.
      + destruct h; [|discriminate]. injection W as <-. eauto.
      + rewrite C2, andb_true_r in W. apply Nat.ltb_lt in C1. rewrite C1 in W. injection W as ->. auto.
    - subst o. rewrite CH, WW in W. discriminate.
  Qed.
  Lemma writes_sub : forall l c seen, NoDup (map (abspath E) (writes (flat_map events (log seen c l)))).
  Proof.
    intros l c seen. destruct (reads_log l seen c) as [N _]. revert N.
    generalize (log seen c l) as m. clear. induction m as [|[|f b o] m IH]; cbn [flat_map]; auto.
    rewrite reads_app, writes_app, reads_events. cbn [app map]. intros N. inversion N; subst.
    destruct (events_shape f b o) as (w & p & -> & Q & W).
    assert (INC : forall x, In x (map (abspath E) (writes (flat_map events m))) -> In x (map (abspath E) (reads (flat_map events m)))).
    { clear. intros x I. apply in_map_iff in I as (g & <- & I). apply in_map.
      induction m as [|[|f b o] m IH]; cbn [flat_map] in *; auto.
      rewrite reads_app, writes_app, reads_events in *. apply in_app_or in I as [I|I]; [left|right; auto].
      destruct (events_shape f b o) as (w & p & EV & Q & W). rewrite EV in I. cbn in I.
      rewrite writes_app, (quiet_writes p), app_nil_r in I by auto. subst w.
      destruct o as [e [y|]|r]; [| |destruct ((0 <? r_changed r) && f_format O)]; cbn in I; tauto. }
    cbn. rewrite writes_app, (quiet_writes p), app_nil_r by auto. subst w.
    destruct o as [e [y|]|r]; [| |destruct ((0 <? r_changed r) && f_format O)]; cbn; auto; constructor; auto.
  Qed.

  Theorem written : forall srcs c code w, handle_inputs E O srcs (start c) = (code, w) ->
    contents w = replay c (trace w)
    /\ NoDup (map (abspath E) (writes (trace w)))
    /\ forall pre f x post, trace w = pre ++ EWrite f x :: post ->
       f_format O = true /\ exists pre' r, pre = pre' ++ [ERead f] /\ open_error E f = None
        /\ result E O f (replay c pre) = Ok r /\ 0 < r_changed r
        /\ (x = r_content r /\ write_error E f = None \/ exists e, write_error E f = Some (e, Some x)).
  Proof.
    intros srcs c code w H. pose proof (run_refines E O srcs c) as R. rewrite H in R. cbv zeta in R. destruct R as (RC & RT & _).
    rewrite RT, RC. split; [|split].
    - rewrite replay_app, (quiet_replay (summary O _)) by apply summary_quiet. rewrite log_replay by apply log_true. auto.
    - rewrite writes_app, (quiet_writes (summary O _)), app_nil_r by apply summary_quiet. apply writes_sub.
    - intros pre f x post S. apply app_quiet_split in S as (p & S & _); [|apply summary_quiet | cbn; auto].
      eapply writes_log; eauto. apply log_true.
  Qed.
  Theorem not_written : forall srcs c code w, handle_inputs E O srcs (start c) = (code, w) ->
    f_format O = false -> writes (trace w) = [] /\ contents w = c.
  Proof.
    intros srcs c code w H F. destruct (written _ _ _ _ H) as (A & _ & B).
    assert (W : writes (trace w) = []).
    { destruct (writes (trace w)) as [|f r] eqn:W; auto. exfalso.
      assert (I : In f (writes (trace w))) by (rewrite W; left; auto).
      unfold writes in I. apply in_flat_map in I as (e & I & J). destruct e; cbn in J; try tauto.
      apply in_split in I as (pre & post & S). destruct (B _ _ _ _ S). congruence. }
    split; auto. rewrite A. revert W. generalize (trace w) as t. induction t as [|[]]; cbn; intros W; auto. discriminate.
  Qed.

  (** ** C28, C37 *)
  Lemma sum_pos : forall {A} (g : A -> nat) l, (0 <? list_sum (map g l)) = true <-> exists x, In x l /\ 0 < g x.
  Proof.
    intros A g l. rewrite Nat.ltb_lt. induction l as [|x l IH]; cbn [map].
    - cbn. split; [lia|intros (? & [] & _)].
    - change (list_sum (g x :: map g l)) with (g x + list_sum (map g l)). split.
      + intros H. destruct (Nat.eq_dec (g x) 0) as [G|G].
        * destruct IH as [IH _]. destruct IH as (y & Y1 & Y2); [lia|]. exists y. split; auto. right; auto.
        * exists x. split; [left; auto|lia].
      + intros (y & [->|I] & P); [lia|]. destruct IH as [_ IH]. assert (0 < list_sum (map g l)) by eauto. lia.
  Qed.
  Theorem exit_status : forall srcs c code w, handle_inputs E O srcs (start c) = (code, w) ->
    (code = 0 \/ code = 1)
    /\ (code = 1 <-> (f_check O = true /\ exists r, In r (results E O c (trace w)) /\ 0 < r_changed r)
                   \/ (f_validate O = true /\ exists r, In r (results E O c (trace w)) /\ 0 < r_invalid r)).
  Proof.
    intros srcs c code w H. pose proof (run_refines E O srcs c) as R. rewrite H in R. cbv zeta in R. destruct R as (RC & RT & RX).
    rewrite RT, results_app, (quiet_results (summary O _)), app_nil_r by apply summary_quiet.
    rewrite <- !sum_pos. unfold changed_queries, invalid_queries in RX. rewrite !(sum_results _ _ c) in RX by apply log_true.
    set (t := flat_map events _) in *.
    split; [destruct (_ || _) in RX; auto|].
    destruct (f_check O), (f_validate O), (0 <? list_sum (map r_changed (results E O c t))), (0 <? list_sum (map r_invalid (results E O c t)));
      cbn in RX; subst code; split; intros X; auto; try discriminate; destruct X as [[? ?]|[? ?]]; discriminate.
  Qed.
  Theorem totals : forall srcs c code w, handle_inputs E O srcs (start c) = (code, w) ->
    let rs := results E O c (trace w) in
    exists body, trace w = body
      ++ (if f_format O || f_check O
          then [EPrint (format_summary (length (filter (fun r => 0 <? r_changed r) rs)) (list_sum (map r_changed rs)) (f_check O))] else [])
      ++ (if f_validate O
          then [EPrint (validation_summary (length (filter (fun r => 0 <? r_invalid r) rs)) (list_sum (map r_invalid rs)))] else []).
  Proof.
    intros srcs c code w H. pose proof (run_refines E O srcs c) as R. rewrite H in R. cbv zeta in R. destruct R as (RC & RT & RX).
    cbv zeta. exists (flat_map events (log [] c (files E srcs))).
    assert (results E O c (trace w) = results E O c (flat_map events (log [] c (files E srcs)))) as ->.
    { rewrite RT, results_app, (quiet_results (summary O _)), app_nil_r by apply summary_quiet. auto. }
    rewrite RT at 1. f_equal. unfold summary, changed_files, changed_queries, invalid_files, invalid_queries.
    rewrite !(sum_results _ _ c) by apply log_true.
    assert (LF : forall {A} (p : A -> bool) l, list_sum (map (fun x => if p x then 1 else 0) l) = length (filter p l)).
    { induction l as [|x l IH]; cbn; auto. unfold list_sum in IH. rewrite IH. destruct (p x); auto. }
    rewrite !LF. reflexivity.
  Qed.

  (** ** C29 *)
  Theorem read_once : forall srcs c code w, handle_inputs E O srcs (start c) = (code, w) ->
    NoDup (map (abspath E) (reads (trace w)))
    /\ (forall f, In f (reads (trace w)) -> In (Some f) (files E srcs))
    /\ (forall f, In (Some f) (files E srcs) -> exists g, In g (reads (trace w)) /\ abspath E g = abspath E f).
  Proof.
    intros srcs c code w H. pose proof (run_refines E O srcs c) as R. rewrite H in R. cbv zeta in R. destruct R as (RC & RT & RX).
    rewrite RT, reads_app, (quiet_reads (summary O _)), app_nil_r by apply summary_quiet.
    destruct (reads_log (files E srcs) [] c) as (A & B & C). split; auto. split.
    - intros f I. apply (B f I).
    - intros f I. destruct (C f I); auto. discriminate.
  Qed.
End Run.

(** ** C35 *)
Section Fail.
  Variables E E' : env.
  Variable O : options.
  Hypothesis SF : same_files E E'.
  Lemma analysed_same : forall f c, analysed E' O f c = analysed E O f c.
  Proof. destruct SF as (S1 & S2 & S3 & S4 & S5 & S6). intros. unfold analysed, result. rewrite S2, S3, S4, S5, S6. auto. Qed.
  Lemma after_same : forall f c o, after E' O f c o = after E O f c o.
  Proof. destruct SF as (S1 & S2 & S3 & S4 & S5 & S6). intros. unfold after. rewrite S2. auto. Qed.
  Lemma log_env : forall l seen c, log E' O seen c l = log E O seen c l.
  Proof.
    induction l as [|[f|] l IH]; intros seen c; cbn; auto.
    - destruct SF as (S1 & _). rewrite S1. destruct (mem _ _); auto. rewrite analysed_same, after_same. f_equal. auto.
    - f_equal. auto.
  Qed.
  Definition keep (a : str) (x : option str) : bool :=
    match x with Some f => negb (str_eqb (abspath E f) a) | None => true end.
  Lemma log_filter : forall a l seen c, mem a seen = true ->
    log E O seen c (filter (keep a) l) = log E O seen c l.
  Proof.
    induction l as [|[f|] l IH]; intros seen c M; cbn; auto.
    - destruct (str_eqb_spec (abspath E f) a).
      + cbn. rewrite e, M. auto.
      + cbn. destruct (mem (abspath E f) seen); auto. rewrite IH; auto. cbn. unfold mem in M. rewrite M. apply orb_true_r.
    - f_equal. auto.
  Qed.
  (** a path that only matters when it is met *)
  Lemma log_unseen : forall a l seen c, (forall f, In (Some f) l -> abspath E f <> a) ->
    log E O (a :: seen) c l = log E O seen c l.
  Proof.
    induction l as [|[f|] l IH]; intros seen c N; cbn [log]; auto.
    - assert (NA : abspath E f <> a) by (apply N; left; auto).
      cbn [mem existsb]. fold (mem (abspath E f) seen). destruct (str_eqb_spec (abspath E f) a); [contradiction|]. cbn [orb].
      change (existsb (str_eqb (abspath E f)) seen) with (mem (abspath E f) seen).
      destruct (mem (abspath E f) seen); [apply IH; intros; apply N; right; auto|].
      f_equal. rewrite <- (IH (abspath E f :: seen)) by (intros; apply N; right; auto).
      apply log_same. intros x. cbn. destruct (str_eqb x a), (str_eqb x (abspath E f)); auto.
    - f_equal. apply IH. intros; apply N; right; auto.
  Qed.
  Lemma keep_out : forall a l f, In (Some f) (filter (keep a) l) -> abspath E f <> a.
  Proof.
    intros a l f I. apply filter_In in I as [_ I]. cbn in I. destruct (str_eqb_spec (abspath E f) a); auto; discriminate.
  Qed.

  Lemma log_without : forall l seen c l1 f b e l2,
    log E O seen c l = l1 ++ Did f b (Failed e None) :: l2 ->
    log E O seen c (filter (keep (abspath E f)) l) = l1 ++ l2.
  Proof.
    induction l as [|[g|] l IH]; intros seen c l1 f b e l2 H; cbn [log] in H.
    - destruct l1; discriminate.
    - destruct (mem (abspath E g) seen) eqn:M.
      + specialize (IH _ _ _ _ _ _ _ H). cbn [filter keep]. destruct (negb (str_eqb (abspath E g) (abspath E f))); auto.
        cbn [log]. rewrite M. auto.
      + destruct l1 as [|s l1]; cbn [app] in H.
        * (* this one fails *)
          injection H as H0 H3 H1 H2. subst. cbn [filter keep]. rewrite str_eqb_refl. cbn [negb app]. rewrite H1. cbn [after].
          rewrite <- (log_filter (abspath E f) l (abspath E f :: seen)) by (cbn; rewrite str_eqb_refl; auto).
          symmetry. apply log_unseen. intros h I. eapply keep_out; eauto.
        * injection H as H1 H2.
          assert (D : abspath E f <> abspath E g).
          { intros X. pose proof (reads_log E O l (abspath E g :: seen) (after E O g c (analysed E O g c))) as (_ & B & _).
            rewrite H2 in B. destruct (B f) as [Y _].
            - rewrite flat_map_app, reads_app. apply in_or_app. right. cbn [flat_map]. rewrite reads_app, reads_events. left; auto.
            - cbn in Y. rewrite X, str_eqb_refl in Y. discriminate. }
          specialize (IH _ _ _ _ _ _ _ H2). cbn [filter keep]. destruct (str_eqb_spec (abspath E g) (abspath E f)); [congruence|].
          cbn [negb log]. rewrite M. cbn [app]. rewrite H1. f_equal. auto.
    - destruct l1 as [|s l1]; cbn [app] in H; [discriminate|]. injection H as H1 H2.
      cbn [filter keep log app]. rewrite <- H1. f_equal. eauto.
  Qed.

  Theorem isolated : forall srcs srcs' c code w code' w' pre f post e,
    handle_inputs E O srcs (start c) = (code, w) ->
    handle_inputs E' O srcs' (start c) = (code', w') ->
    files E' srcs' = filter (keep (abspath E f)) (files E srcs) ->
    trace w = pre ++ ERead f :: post ->
    analysed E O f (replay E c pre) = Failed e None ->
    exists post', post = complaint f e :: post' /\ trace w' = pre ++ post'
      /\ contents w' = contents w /\ code' = code.
  Proof.
    intros srcs srcs' c code w code' w' pre f post e H H' FS T A.
    pose proof (run_refines E O srcs c) as R. rewrite H in R. cbv zeta in R. destruct R as (RC & RT & RX).
    pose proof (run_refines E' O srcs' c) as R. rewrite H' in R. cbv zeta in R. destruct R as (RC' & RT' & RX').
    rewrite FS, log_env in *. rewrite RT in T.
    apply app_quiet_split in T as (p & T & ->); [|apply summary_quiet | cbn; auto].
    destruct (in_events_split _ _ _ _ _ T) as (l1 & s & l2 & a & b & EL & ES & -> & ->).
    pose proof (log_true E O (files E srcs) [] c) as TL. rewrite EL in TL.
    destruct (true_log_split _ _ _ _ _ _ TL) as [T1 T2].
    destruct s as [|g d o].
    { cbn in ES. destruct a as [|? [|? ?]]; cbn in ES; discriminate. }
    cbn in T2. destruct T2 as (-> & OO & _).
    destruct (events_shape O g (contents_after E O c l1) o) as (ww & q & EV & Q & W).
    assert (a = [] /\ g = f) as [-> ->].
    { rewrite EV in ES. change (ERead g :: ww ++ q) with ((ERead g :: ww) ++ q) in ES.
      apply app_quiet_split in ES as (b' & ES & ->); auto.
      destruct a as [|x a]; cbn in ES; [injection ES; auto|].
      exfalso. assert (ES2 : ww = a ++ ERead f :: b') by (injection ES; auto). clear ES. rename ES2 into ES. destruct o as [e' [y|]|r]; [| |destruct ((0 <? r_changed r) && f_format O)]; subst ww;
        destruct a as [|? [|? ?]]; cbn in ES; try discriminate; injection ES; intros; discriminate. }
    rewrite app_nil_r, log_replay in A by auto. rewrite A in OO. subst o.
    assert (b = [complaint f e]) as ->.
    { cbn in ES. injection ES as <-. unfold complaint. auto. }
    assert (L' : log E O [] c (filter (keep (abspath E f)) (files E srcs)) = l1 ++ l2).
    { eapply log_without. exact EL. }
    exists (flat_map (events O) l2 ++ summary O (log E O [] c (files E srcs))).
    rewrite L' in *. rewrite EL in RC, RX |- *.
    assert (SM : forall g, sum g (l1 ++ Did f (contents_after E O c l1) (Failed e None) :: l2) = sum g (l1 ++ l2)).
    { intros g. rewrite !sum_app. f_equal. }
    assert (SY : summary O (l1 ++ Did f (contents_after E O c l1) (Failed e None) :: l2) = summary O (l1 ++ l2)).
    { unfold summary, changed_files, changed_queries, invalid_files, invalid_queries. rewrite !SM. auto. }
    rewrite SY. split; [reflexivity|]. split; [|split].
    - rewrite RT', app_nil_r, flat_map_app, <- app_assoc. auto.
    - rewrite RC', RC. assert (CE : forall l c, contents_after E' O c l = contents_after E O c l).
      { induction l as [|[|g b o] l IH]; intros; cbn; auto. rewrite after_same. auto. }
      rewrite CE, !contents_after_app. auto.
    - subst code code'. unfold changed_queries, invalid_queries. rewrite !SM. auto.
  Qed.
End Fail.

(** ** the command line *)
Lemma usage : forall E O srcs c,
  fst (main E O srcs (start c)) = 2 <->
  (f_format O = true /\ f_check O = true) \/ (f_validate O = true /\ f_verbose O = true)
  \/ (f_format O = false /\ f_check O = false /\ f_validate O = false /\ f_verbose O = false)
  \/ srcs = [].
Proof.
  intros E O srcs c. unfold main.
  destruct (_ || _) eqn:X.
  - cbn. split; auto. intros _.
    destruct (f_format O), (f_check O), (f_validate O), (f_verbose O), srcs; cbn in X; try discriminate; auto 10.
  - destruct (handle_inputs E O srcs (start c)) as [code w] eqn:H. cbn [fst].
    destruct (exit_status E O srcs c code w H) as [C _].
    split; [destruct C; subst; discriminate|]. intros Y. exfalso.
    destruct Y as [[A B]|[[A B]|[(A & B & D & F)| ->]]];
      rewrite ?A, ?B, ?D, ?F in X; cbn in X; rewrite ?orb_true_r in X; discriminate.
Qed.
Lemma verbose_alone : forall E srcs c,
  srcs <> [] -> fst (main E (mk_opts false false false true) srcs (start c)) = 0.
Proof.
  intros E srcs c N. unfold main. cbn [f_format f_check f_validate f_verbose andb orb negb].
  destruct srcs as [|s r]; [contradiction|].
  destruct (handle_inputs E _ (s :: r) (start c)) as [code w] eqn:H. cbn [fst].
  destruct (exit_status _ _ _ _ _ _ H) as ([C|C] & IFF); auto.
  apply IFF in C as [[X _]|[X _]]; discriminate.
Qed.
