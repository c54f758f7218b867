(** C67: what --verbose-validate prints for files whose queries are on tables. *)
From Verif Require Import PyStr Lib Tokeniser Ast Parser Render Validate Api PyTokens FileHandler Grammar GramRound SpecVal SpecApi SpecFile SpecReport SpecNested SpecAnswer SpecStuck ProofNested ProofStuck ProofRaise2
  SpecTables ProofTables SpecScope SpecNamed ProofNamed PyTokenize SpecTokenize SpecSource SpecRun
  ProofFile ProofFile2 ProofFile3 ProofSource ProofRun ProofRun2 ProofRun3 ProofTokenize6 SpecModes ProofModes ProofModes4 ProofModes5 ProofVerdict2 SpecFailed ProofFailed SpecExact ProofExact
  SpecLine ProofLine ProofLine2 SpecSays ProofSays.
Local Open Scope str_scope.
Local Open Scope list_scope.

Section One.
  Variable ord : fields -> fields.
  Hypothesis Ord : is_order ord.
  Variable val : bool.
  Lemma report_says : forall t r, table_query t -> ~ (checked val t r = true /\ halting_query t) ->
    (exists es, report_of ord val t r = [(fst (t_start t), es)] /\ es <> [] /\ deserves t es /\ checked val t r = true /\ faulty_query t)
    \/ (report_of ord val t r = [] /\ ~ (checked val t r = true /\ faulty_query t)).
  Proof.
    intros t r C NH. destruct (report_tables ord Ord val t r C NH) as [(L & CH & Fa)|X]; [left|right; exact X].
    rewrite report_checked, CH in *. pose proof CH as S. unfold checked in S. apply andb_true_iff in S as [S _]. destruct (C S) as (n & Hn & Se & W & A). destruct (holds_handled t n Hn W) as (v & Q & X & B).
    destruct (errors_tables _ n ord Ord B Se W A) as [(e' & _ & _ & x & Lx & K)|((es & Z & I) & _)]; [destruct NH; split; auto; exists n, x; auto|].
    assert (QE : query_errors ord (t_text t) = es) by (unfold query_errors; rewrite X, Z; reflexivity). rewrite QE in *.
    assert (D : deserves t es).
    { assert (W' : statement (without_from n) = true).
      { unfold statement. apply shaped_sel; [apply shaped_without; unfold shaped; rewrite Se; unfold statement in W; rewrite W; apply orb_true_r|destruct n; try discriminate Se; reflexivity]. }
      intros m. rewrite (named_messages _ n ord es m Ord B Se W' A Z). split.
      - intros (x & S' & Sx & Sa). exists n, x, S'. auto.
      - intros (n' & x & S' & Hn' & Sx & Sa). assert (n' = n) as -> by (eapply holds_one; eauto). eauto. }
    exists es. destruct es as [|m es]; [discriminate L|]. split; auto. split; [discriminate|]. auto.
  Qed.
  Lemma reports_says : forall ts, (forall t, In t ts -> table_query t) -> ~ halting_file val ts -> forall line es, In (line, es) (reports ord val ts) ->
    exists a t r, ts = a ++ t :: r /\ checked val t r = true /\ faulty_query t /\ fst (t_start t) = line /\ es <> [] /\ deserves t es.
  Proof.
    induction ts as [|t r IH]; intros C NH line es I; [destruct I|]. cbn [reports] in I. apply in_app_or in I as [I|I].
    - destruct (report_says t r) as [(es' & E & N & D & K)|(E & _)]; [apply C; left; auto|intros K; apply NH; exists [], t, r; auto| |]; rewrite E in I; [|destruct I].
      destruct I as [I|[]]. injection I as <- <-. exists [], t, r. tauto.
    - destruct (IH ltac:(intros x Ix; apply C; right; auto) ltac:(intros (a & x & r' & -> & K); apply NH; exists (t :: a), x, r'; auto) line es I) as (a & x & r' & -> & K). exists (t :: a), x, r'. auto.
  Qed.
  Lemma says_reports : forall ts, (forall t, In t ts -> table_query t) -> ~ halting_file val ts -> forall a t r, ts = a ++ t :: r -> checked val t r = true -> faulty_query t ->
    exists es, deserves t es /\ In (fst (t_start t), es) (reports ord val ts).
  Proof.
    induction ts as [|x ts IH]; intros C NH a t r E CH Fa; [destruct a; discriminate E|]. destruct a as [|y a]; injection E as -> ->.
    - destruct (report_says t r) as [(es & E & N & D & K)|(_ & K)]; [apply C; left; auto|intros K; apply NH; exists [], t, r; auto| |destruct K; auto].
      exists es. split; auto. cbn [reports]. rewrite E. left. auto.
    - destruct (IH ltac:(intros z Iz; apply C; right; auto) ltac:(intros (b & z & r' & Eb & K); apply NH; exists (y :: b), z, r'; split; auto; rewrite Eb; reflexivity) a t r eq_refl CH Fa) as (es & D & I).
      exists es. split; auto. cbn [reports]. apply in_or_app. right. exact I.
  Qed.
End One.

Section Run.
  Variable E : env.
  Variable word : N -> bool.
  Variable O : options.
  Variable srcs : list str.
  Variable c : N -> str.
  Hypothesis GT : gen_tokens E = generate_tokens word.
  Hypothesis Ord : is_order (set_order E).
  Hypothesis ON : one_name E srcs.
  Hypothesis ST : forall f, In (Some f) (files E srcs) -> open_error E f = None /\ write_error E f = None /\ ordinary word (c (file_id E f)) = true
     /\ forall t, In t (fst (generate_tokens word (c (file_id E f)))) -> table_query t.
  Variable code : nat.
  Variable w : world.
  Hypothesis H : handle_inputs E O srcs (start c) = (code, w).
  Lemma locs_reports : forall f r, analysed E O f c = Done r -> r_locs r = reports (set_order E) (f_validate O || f_verbose O) (fst (generate_tokens word (c (file_id E f)))) /\ r_invalid r = length (r_locs r).
  Proof.
    intros f r A. apply analysed_done in A. unfold result in A. rewrite GT in A. destruct (generate_tokens word (c (file_id E f))) as [ts eos]. cbn [fst]. destruct (reports_exact _ _ _ _ _ _ A) as [E1 E2]. rewrite E2, E1. auto.
  Qed.
  Lemma verbose_all : f_verbose O = true -> forall f a t r, In (Some f) (files E srcs) -> ~ halting_file true (fst (generate_tokens word (c (file_id E f)))) ->
    fst (generate_tokens word (c (file_id E f))) = a ++ t :: r -> checked true t r = true -> faulty_query t ->
    exists ms, deserves t ms /\ In (EPrint ("L" ++ str_of_Z (fst (t_start t)) ++ " - " ++ join ", " ms)) (trace w).
  Proof.
    intros V f a t r IF NH T CH Fa. assert (VV : f_validate O || f_verbose O = true) by (rewrite V; apply orb_true_r).
    destruct (analysed_tables E word O srcs c GT Ord ST f IF) as [(e & _ & _ & X)|(r' & AN & _ & _)]; [rewrite VV in X; contradiction|].
    destruct (ST f IF) as (_ & _ & _ & CQ). destruct (locs_reports f r' AN) as [L1 L2]. rewrite VV in L1.
    destruct (says_reports (set_order E) Ord true _ CQ NH a t r T CH Fa) as (ms & D & I). exists ms. split; auto. rewrite <- L1 in I.
    eapply shown; eauto. rewrite AN. cbn [events]. right. apply in_or_app. right. rewrite VV, V, andb_true_r.
    assert (P : (0 <? r_invalid r') = true) by (apply Nat.ltb_lt; rewrite L2; destruct (r_locs r'); [destruct I|cbn; lia]). rewrite P. right.
    apply in_map_iff. eexists. split; [|exact I]. reflexivity.
  Qed.
  Lemma verbose_only : forall m, In (EPrint m) (trace w) -> startswith "L" m = true ->
    f_verbose O = true /\ exists f a t r ms, In (Some f) (files E srcs) /\ ~ halting_file true (fst (generate_tokens word (c (file_id E f))))
      /\ fst (generate_tokens word (c (file_id E f))) = a ++ t :: r /\ checked true t r = true /\ faulty_query t
      /\ deserves t ms /\ ms <> [] /\ m = "L" ++ str_of_Z (fst (t_start t)) ++ " - " ++ join ", " ms.
  Proof.
    intros m I L. destruct (run_plan E O c srcs code w (one_name_links _ _ ON) H) as (_ & T & _). rewrite T in I. apply in_app_or in I as [I|I]; [|apply summary_no_L in I; congruence].
    apply in_flat_map in I as (s & I & J). destruct (event_L _ _ _ J L) as (V & f & b & r & line & es & -> & K & ->). split; auto.
    assert (VV : f_validate O || f_verbose O = true) by (rewrite V; apply orb_true_r).
    apply in_map_iff in I as (y & Y & I). destruct y as [g|]; cbn [canon] in Y; [|discriminate Y]. injection Y as -> <- AN. apply plan_in in I as [I _].
    destruct (analysed_tables E word O srcs c GT Ord ST f I) as [(e & AN' & _)|(r' & _ & NH & _)]; [congruence|]. rewrite VV in NH.
    destruct (locs_reports f r AN) as [L1 _]. rewrite VV in L1. rewrite L1 in K. destruct (ST f I) as (_ & _ & _ & CQ).
    destruct (reports_says (set_order E) Ord true _ CQ NH line es K) as (a & t & r0 & Et & CH & Fa & <- & N & D). exists f, a, t, r0, es. auto 10.
  Qed.
End Run.
