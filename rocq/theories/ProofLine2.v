(** Proofs for C56: the lines that a run prints. *)
From Coq Require Import Sorted.
From Verif Require Import PyStr Lib Ast Render Validate Api PyTokens PyTokenize FileHandler SpecVal SpecFile SpecRun ProofFile ProofFile2 ProofRun ProofRun2 SpecLine ProofLine.
Local Open Scope str_scope.
Local Open Scope list_scope.

Lemma located_stands : forall pre s ts, located pre s ts -> forall t, In t ts -> t_type t = TString -> stands (pre ++ s) (t_text t) (fst (t_start t)).
Proof.
  intros pre s ts L. induction L as [pre s|pre s t ts N L IH|pre g s t ts F L IH]; intros u I T.
  - destruct I.
  - destruct I as [<-|I]; [contradiction|]. auto.
  - destruct I as [<-|I].
    + exists (pre ++ g), s. rewrite <- app_assoc. auto.
    + specialize (IH u I T). rewrite <- !app_assoc in IH. auto.
Qed.
Lemma line_app : forall a b, (line_after a <= line_after (a ++ b))%Z.
Proof. intros. unfold line_after. rewrite count_occ_app. lia. Qed.
Lemma located_lines : forall ord val pre s ts, located pre s ts ->
  Sorted Z.le (map fst (reports ord val ts)) /\ forall x, In x (map fst (reports ord val ts)) -> (line_after pre <= x)%Z.
Proof.
  intros ord val pre s ts L. induction L as [pre s|pre s t ts N L [IH1 IH2]|pre g s t ts F L [IH1 IH2]]; cbn [reports].
  - split; [constructor|]. intros x [].
  - assert (report_of ord val t ts = []) as -> by (unfold report_of, sql_string; destruct (t_type t); auto; contradiction). auto.
  - assert (forall x, In x (map fst (reports ord val ts)) -> (line_after (pre ++ g) <= x)%Z) as H.
    { intros x I. apply IH2 in I. rewrite app_assoc in I. pose proof (line_app (pre ++ g) (t_text t)). lia. }
    assert (report_of ord val t ts = [] \/ exists es, report_of ord val t ts = [(line_after (pre ++ g), es)]) as [->|[es ->]].
    { unfold report_of. destruct (_ && _); auto. destruct (query_errors ord (t_text t)); auto. right. rewrite F. eauto. }
    + cbn [app]. split; auto. intros x I. apply H in I. pose proof (line_app pre g). lia.
    + cbn [app map fst]. split.
      * constructor; auto. destruct (map fst (reports ord val ts)) as [|y l] eqn:E; constructor. apply H. left. auto.
      * intros x [<-|I]; [apply line_app|]. apply H in I. pose proof (line_app pre g). lia.
Qed.
Lemma report_in : forall ord val ts line errs, In (line, errs) (reports ord val ts) ->
  exists t, In t ts /\ t_type t = TString /\ is_select_string (t_text t) = true /\ line = fst (t_start t) /\ errs = query_errors ord (t_text t) /\ errs <> [].
Proof.
  intros ord val. induction ts as [|t ts IH]; intros line errs H; [destruct H|]. cbn [reports] in H. apply in_app_or in H as [H|H].
  - exists t. split; [left; auto|]. unfold report_of in H. destruct (sql_string t && _) eqn:S; [|destruct H]. apply andb_true_iff in S as [S _].
    unfold sql_string in S. destruct (t_type t); try discriminate. destruct (query_errors ord (t_text t)) as [|e es] eqn:Q; [destruct H|].
    destruct H as [H|[]]. injection H as <- <-. repeat split; auto. discriminate.
  - destruct (IH _ _ H) as (u & I & R). exists u. split; auto. right. auto.
Qed.

Section Run.
  Variable word : N -> bool.
  Lemma lines_true : forall ord fmt val src r, let '(ts, eos) := generate_tokens word src in compute_file_content ord fmt val ts eos = Ok r ->
    Sorted Z.le (map fst (r_locs r)) /\ forall line errs, In (line, errs) (r_locs r) ->
      exists lit, stands src lit line /\ is_select_string lit = true /\ errs = query_errors ord lit /\ errs <> [].
  Proof.
    intros ord fmt val src r. pose proof (tokens_located word src) as L. destruct (generate_tokens word src) as [ts eos]. cbn [fst] in L. intros C.
    destruct (reports_exact _ _ _ _ _ _ C) as [E _]. rewrite E. split; [apply (located_lines _ _ _ _ _ L)|]. intros line errs I.
    apply report_in in I as (t & I & T & S & -> & -> & NE). exists (t_text t). repeat split; auto. apply (located_stands _ _ _ L t I T).
  Qed.

  Variable E : env.
  Variable O : options.
  Hypothesis G : gen_tokens E = generate_tokens word.
  Lemma no_L : forall d x, startswith "L" (str_of_uint d ++ " file" ++ x) = false.
  Proof. destruct d; reflexivity. Qed.
  Lemma summary_no_L : forall l m, In (EPrint m) (summary O l) -> startswith "L" m = false.
  Proof.
    intros l m H. unfold summary in H. apply in_app_or in H as [H|H].
    - destruct (_ || _); [|destruct H]. destruct H as [H|[]]. injection H as <-. unfold format_summary. destruct (0 <? _); [apply no_L|reflexivity].
    - destruct (f_validate O); [|destruct H]. destruct H as [H|[]]. injection H as <-. unfold validation_summary. destruct (0 <? _); [apply no_L|reflexivity].
  Qed.
  Lemma event_L : forall s m, In (EPrint m) (events O s) -> startswith "L" m = true ->
    f_verbose O = true /\ exists f b r line errs, s = Did f b (Done r) /\ In (line, errs) (r_locs r) /\ m = "L" ++ str_of_Z line ++ " - " ++ join ", " errs.
  Proof.
    intros [|f b [e h|r]] m H L; cbn [events] in H.
    - destruct H as [H|[]]. injection H as <-. discriminate.
    - destruct H as [H|H]; [discriminate|]. apply in_app_or in H as [H|[H|[]]]; [destruct h; [destruct H as [H|[]]|destruct H]; discriminate|].
      destruct e; try discriminate H; injection H as <-; discriminate.
    - destruct H as [H|H]; [discriminate|]. apply in_app_or in H as [H|H].
      + destruct (0 <? r_changed r); [|destruct H]. destruct (f_format O).
        * destruct H as [H|[H|[]]]; [discriminate|]. injection H as <-. discriminate.
        * destruct (f_check O); [|destruct H]. destruct H as [H|[]]. injection H as <-. discriminate.
      + destruct (_ && _); [|destruct H]. destruct H as [H|H]; [injection H as <-; discriminate|].
        destruct (f_verbose O); [|destruct H]. split; auto. apply in_map_iff in H as ([line errs] & H & I). injection H as <-. exists f, b, r, line, errs. auto.
  Qed.
  Lemma analysed_done : forall f c r, analysed E O f c = Done r -> result E O f c = Ok r.
  Proof.
    intros f c r H. unfold analysed in H. destruct (open_error E f); [discriminate|]. destruct (result E O f c); [|discriminate].
    destruct (_ && _); [destruct (write_error E f) as [[? ?]|]; [discriminate|]|]; congruence.
  Qed.
  Theorem printed_lines : forall srcs c code w pre m post, handle_inputs E O srcs (start c) = (code, w) ->
    trace w = pre ++ EPrint m :: post -> startswith "L" m = true ->
    f_verbose O = true /\ exists pre1 f pre2 lit line, pre = pre1 ++ ERead f :: pre2 /\ reads pre2 = []
      /\ stands (replay E c pre1 (file_id E f)) lit line /\ is_select_string lit = true /\ query_errors (set_order E) lit <> []
      /\ m = "L" ++ str_of_Z line ++ " - " ++ join ", " (query_errors (set_order E) lit).
  Proof.
    intros srcs c code w pre m post H T L. pose proof (run_refines E O srcs c) as R. cbv zeta in R. rewrite H in R. destruct R as (_ & R & _). rewrite T in R.
    symmetry in R. pose proof (log_true E O (files E srcs) [] c) as TL. set (l := log E O [] c (files E srcs)) in *.
    assert (exists post', flat_map (events O) l = pre ++ EPrint m :: post') as [post' X].
    { clear - R L. revert pre R. generalize (flat_map (events O) l) as u. induction u as [|x u IH]; intros pre R.
      - cbn [app] in R. assert (In (EPrint m) (summary O l)) as I by (rewrite R; apply in_or_app; right; left; auto). apply summary_no_L in I. congruence.
      - destruct pre as [|y pre]; cbn [app] in R; injection R as -> R; [exists u; auto|]. destruct (IH _ R) as [p' ->]. exists p'. auto. }
    destruct (in_events_split _ _ _ _ _ X) as (l1 & s & l2 & a & b & EL & ES & -> & ->). rewrite EL in TL. destruct (true_log_split _ _ _ _ _ _ TL) as [T1 T2].
    assert (In (EPrint m) (events O s)) as I by (rewrite ES; apply in_or_app; right; left; auto). destruct (event_L _ _ I L) as (V & f & b0 & r & line & errs & -> & J & ->).
    split; auto. cbn [true_log] in T2. destruct T2 as (-> & OO & _). symmetry in OO. apply analysed_done in OO. unfold result in OO. rewrite G in OO.
    pose proof (lines_true (set_order E) (f_format O || f_check O) (f_validate O || f_verbose O) (contents_after E O c l1 (file_id E f)) r) as Z.
    destruct (generate_tokens word _) as [ts eos]. destruct (Z OO) as [_ Z']. destruct (Z' _ _ J) as (lit & ST & SE & -> & NE).
    destruct (events_shape O f (contents_after E O c l1) (Done r)) as (w0 & p & EV & Q & W). rewrite EV in ES. destruct a as [|y a]; [discriminate|]. cbn [app] in ES. injection ES as <- ES.
    exists (flat_map (events O) l1), f, a, lit, line. repeat split; auto.
    - pose proof (reads_events O f (contents_after E O c l1) (Done r)) as RE. rewrite EV in RE. cbn [reads flat_map app] in RE. injection RE as RE. rewrite ES in RE.
      change (reads (a ++ EPrint ("L" ++ str_of_Z line ++ " - " ++ join ", " (query_errors (set_order E) lit)) :: b) = []) in RE. rewrite reads_app in RE. apply app_eq_nil in RE. tauto.
    - rewrite log_replay by auto. auto.
  Qed.
  Theorem all_printed : forall srcs c code w r line errs, handle_inputs E O srcs (start c) = (code, w) -> f_verbose O = true ->
    In r (results E O c (trace w)) -> In (line, errs) (r_locs r) -> In (EPrint ("L" ++ str_of_Z line ++ " - " ++ join ", " errs)) (trace w).
  Proof.
    intros srcs c code w r line errs H V I J. pose proof (run_refines E O srcs c) as R. cbv zeta in R. rewrite H in R. destruct R as (_ & R & _). rewrite R in *.
    rewrite results_app, (quiet_results E O (summary O _)), app_nil_r in I by apply summary_quiet. rewrite results_log in I by apply log_true.
    apply in_or_app. left. apply in_flat_map in I as ([|f b [e h|r']] & I & K); [destruct K|destruct K|]. destruct K as [->|[]].
    apply in_flat_map. exists (Did f b (Done r)). split; auto. cbn [events]. right. apply in_or_app. right.
    assert (0 <? r_invalid r = true) as P.
    { pose proof (log_true E O (files E srcs) [] c) as TL. apply in_split in I as (l1 & l2 & EL). rewrite EL in TL. destruct (true_log_split _ _ _ _ _ _ TL) as [_ T2].
      cbn [true_log] in T2. destruct T2 as (_ & OO & _). symmetry in OO. apply analysed_done in OO. unfold result in OO. destruct (gen_tokens E _) as [ts eos].
      destruct (reports_exact _ _ _ _ _ _ OO) as [E1 E2]. rewrite E1 in J. rewrite E2. destruct (reports _ _ ts); [destruct J|reflexivity]. }
    rewrite P, V, orb_true_r. cbn [andb]. right. apply in_map_iff. exists (line, errs). auto.
  Qed.
End Run.

Definition moved_file : str := "x = '''
select a from t'''
f(""select a limit b"")
".
Lemma line_moved : exists src r line errs,
  (let '(ts, eos) := generate_tokens (fun _ => false) src in compute_file_content (fun x => x) true true ts eos = Ok r)
  /\ In (line, errs) (r_locs r)
  /\ forall t, In t (fst (generate_tokens (fun _ => false) (r_content r))) -> t_type t = TString -> fst (t_start t) <> line.
Proof.
  assert (exists r, (let '(ts, eos) := generate_tokens (fun _ => false) moved_file in compute_file_content (fun x => x) true true ts eos) = Ok r
    /\ existsb (fun l => Z.eqb (fst l) 3) (r_locs r) = true
    /\ forallb (fun t => match t_type t with TString => negb (Z.eqb (fst (t_start t)) 3) | _ => true end) (fst (generate_tokens (fun _ => false) (r_content r))) = true) as (r & C & L & F)
    by (eexists; split; [vm_compute; reflexivity|split; vm_compute; reflexivity]).
  apply existsb_exists in L as ([line errs] & I & L). cbn [fst] in L. apply Z.eqb_eq in L. subst. exists moved_file, r, 3%Z, errs.
  split; [destruct (generate_tokens _ moved_file); exact C|]. split; auto. intros t J T. rewrite forallb_forall in F. apply F in J. rewrite T in J.
  apply negb_true_iff, Z.eqb_neq in J. auto.
Qed.
