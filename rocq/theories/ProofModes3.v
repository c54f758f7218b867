(** C57 continued: formatting again.  C58: formatting and validating do not influence each other. *)
From Verif Require Import PyStr Lib Tokeniser Ast Parser Render Validate Api PyTokens FileHandler SpecRound SpecStable PyTokenize SpecTokenize ProofTokenize6
  Args SpecArgs SpecVal SpecFile SpecRun ProofFile ProofFile2 ProofRun ProofRun2 ProofArgs4 SpecModes ProofModes ProofModes2.
Local Open Scope str_scope.
Local Open Scope list_scope.

Lemma log_zero : forall E v w l seen c,
  (forall f b r, In (Did f b (Done r)) (log E (mk_opts false true v w) seen c l) -> r_changed r = 0) ->
  log E (mk_opts true false v w) seen c l = log E (mk_opts false true v w) seen c l.
Proof.
  intros E v w. induction l as [|[f|] l IH]; intros seen c H; cbn [log] in *; auto.
  - destruct (mem (abspath E f) seen); [apply IH; auto|].
    assert (AN : analysed E (mk_opts true false v w) f c = analysed E (mk_opts false true v w) f c).
    { specialize (H f c). unfold analysed in *. unfold result in *. cbn [f_format f_check f_validate f_verbose orb] in *.
      destruct (open_error E f); auto. destruct (gen_tokens E _) as [ts eos]. destruct (compute_file_content _ _ _ _ _) as [r|e]; auto.
      rewrite andb_false_r in H. rewrite andb_false_r. specialize (H r (or_introl eq_refl)). rewrite H. reflexivity. }
    rewrite AN in *. assert (AF : after E (mk_opts true false v w) f c (analysed E (mk_opts false true v w) f c)
        = after E (mk_opts false true v w) f c (analysed E (mk_opts false true v w) f c)).
    { destruct (analysed E (mk_opts false true v w) f c) as [e h|r] eqn:A; [reflexivity|]. cbn [after].
      rewrite (H f c r (or_introl eq_refl)). reflexivity. }
    rewrite AF. f_equal. apply IH. intros g b r I. eapply H. right. exact I.
  - f_equal. apply IH. intros g b r I. eapply H. right. exact I.
Qed.
Lemma log_quiet_contents : forall E v w l seen c, contents_after E (mk_opts false true v w) c (log E (mk_opts false true v w) seen c l) = c.
Proof.
  intros E v w. induction l as [|[f|] l IH]; intros seen c; cbn [log contents_after]; auto.
  destruct (mem (abspath E f) seen); auto. cbn [contents_after].
  assert (AF : after E (mk_opts false true v w) f c (analysed E (mk_opts false true v w) f c) = c).
  { unfold analysed. destruct (open_error E f); [reflexivity|]. destruct (result _ _ _ _); [|reflexivity]. cbn [f_format]. rewrite andb_false_r. cbn [after f_format]. rewrite andb_false_r. reflexivity. }
  rewrite AF. apply IH.
Qed.
(** a run of --format that finds what --check-format finds unchanged *)
Lemma format_nothing : forall E v w srcs c code2 w2 code3 w3,
  handle_inputs E (mk_opts false true v w) srcs (start c) = (code2, w2) ->
  (forall r, In r (results E (mk_opts false true v w) c (trace w2)) -> r_changed r = 0) ->
  handle_inputs E (mk_opts true false v w) srcs (start c) = (code3, w3) ->
  writes (trace w3) = [] /\ contents w3 = c.
Proof.
  intros E v w srcs c code2 w2 code3 w3 H2 Z H3. set (Oc := mk_opts false true v w) in *. set (Of := mk_opts true false v w) in *.
  pose proof (run_refines E Oc srcs c) as R2. rewrite H2 in R2. cbv zeta in R2. destruct R2 as (_ & T2 & _).
  pose proof (run_refines E Of srcs c) as R3. rewrite H3 in R3. cbv zeta in R3. destruct R3 as (C3 & T3 & _).
  assert (LZ : log E Of [] c (files E srcs) = log E Oc [] c (files E srcs)).
  { apply log_zero. intros f b r I. apply Z. rewrite T2, results_app. apply in_or_app. left. fold Oc. rewrite results_log by apply log_true.
    apply in_flat_map. exists (Did f b (Done r)). split; [exact I|left; auto]. }
  assert (CC : contents w3 = c).
  { rewrite C3, LZ. rewrite <- (log_quiet_contents E v w (files E srcs) [] c) at 3. fold Oc.
    assert (ZZ : forall f b r, In (Did f b (Done r)) (log E Oc [] c (files E srcs)) -> r_changed r = 0).
    { intros f b r I. apply Z. rewrite T2, results_app. apply in_or_app. left. rewrite results_log by apply log_true.
      apply in_flat_map. exists (Did f b (Done r)). split; [exact I|left; auto]. }
    revert ZZ. generalize (log E Oc [] c (files E srcs)) as l. generalize c at 1 2 as c'. intros c' l ZZ. clear - ZZ. revert c'.
    induction l as [|[|f b o] l IH]; intros c'; cbn [contents_after]; auto.
    - apply IH. intros g b r I. eapply ZZ. right. exact I.
    - assert (AF : after E Of f b o = after E Oc f b o).
      { destruct o as [e h|r]; [reflexivity|]. cbn [after]. rewrite (ZZ f b r (or_introl eq_refl)). reflexivity. }
      rewrite AF. apply IH. intros g b' r I. eapply ZZ. right. exact I. }
  split; [|exact CC].
  destruct (writes (trace w3)) as [|f rest] eqn:W; auto. exfalso.
  assert (I : In f (writes (trace w3))) by (rewrite W; left; auto).
  unfold writes in I. apply in_flat_map in I as (e & I & J). destruct e; cbn in J; try tauto. destruct J as [<-|[]].
  rewrite T3, LZ in I. apply in_app_iff in I as [I|I].
  2:{ pose proof (summary_quiet Of (log E Oc [] c (files E srcs))) as Q. rewrite Forall_forall in Q. apply (Q _ I). }
  apply in_flat_map in I as ([|g b o] & IL & IE); [cbn in IE; destruct IE as [IE|[]]; discriminate|].
  assert (OO : forall e h, o = Failed e h -> h = None).
  { intros e h ->. assert (TL := log_true E Oc (files E srcs) [] c). apply in_split in IL as (l1 & l2 & SP). rewrite SP in TL.
    apply true_log_split in TL as [_ TL]. cbn [true_log] in TL. destruct TL as (_ & EO & _). unfold analysed in EO. destruct (open_error E g); [injection EO as _ ->; auto|].
    destruct (result E Oc g _); [|injection EO as _ ->; auto]. cbn [f_format Oc] in EO. rewrite andb_false_r in EO. discriminate. }
  destruct (events_shape Of g b o) as (ww & p & EV & Q & SH). rewrite EV in IE.
  destruct IE as [IE|IE]; [discriminate|]. apply in_app_iff in IE as [IE|IE].
  - destruct o as [e h|r]; [rewrite (OO e h eq_refl) in SH; subst ww; destruct IE|].
    assert (r_changed r = 0) as RZ.
    { apply Z. rewrite T2, results_app. apply in_or_app. left. rewrite results_log by apply log_true. apply in_flat_map. exists (Did g b (Done r)). split; [exact IL|left; auto]. }
    rewrite RZ in SH. cbn in SH. subst ww. destruct IE.
  - rewrite Forall_forall in Q. apply (Q _ IE).
Qed.

Theorem settled_program : forall word E v w argv1 argv2 argv3 srcs c code1 w1 code2 w2 code3 w3,
  gen_tokens E = generate_tokens word ->
  (forall f, In (Some f) (files E srcs) -> write_error E f = None /\ ordinary word (c (file_id E f)) = true
     /\ forall t, In t (fst (generate_tokens word (c (file_id E f)))) -> simple_query t) ->
  command argv1 srcs (mk_opts true false v w) -> command argv2 srcs (mk_opts false true v w) -> command argv3 srcs (mk_opts true false v w) ->
  program E argv1 (start c) = (code1, w1) -> program E argv2 (start (contents w1)) = (code2, w2) -> program E argv3 (start (contents w1)) = (code3, w3) ->
  In (EPrint "No file would be reformatted.") (trace w2) /\ (v = false -> code2 = 0)
  /\ writes (trace w3) = [] /\ contents w3 = contents w1.
Proof.
  intros word E v w argv1 argv2 argv3 srcs c code1 w1 code2 w2 code3 w3 G H C1 C2 C3 H1 H2 H3.
  rewrite (run_handled E _ _ _ _ C1) in H1 by (cbn; auto). rewrite (run_handled E _ _ _ _ C2) in H2 by (cbn; auto). rewrite (run_handled E _ _ _ _ C3) in H3 by (cbn; auto).
  destruct (format_then_check_files word E v w srcs c _ _ _ _ G H H1 H2) as (Z & P & _ & S).
  destruct (format_nothing E v w srcs _ _ _ _ _ H2 Z H3) as (A & B). auto.
Qed.

(** ** C58 *)
Section Both.
  Variable ord : fields -> fields.

  Lemma fine_ok : forall fmt val ts, fine ord fmt val ts -> exists s, compute_tokens ord fmt val ts None = Ok s.
  Proof.
    intros fmt val ts F. pose proof (compute_tokens_spec ord fmt val ts None) as C. destruct (compute_tokens ord fmt val ts None) as [s|e]; eauto.
    destruct C as [C|(a & t & r & -> & X)]; [discriminate|]. exfalso. exact (F a t r e eq_refl X).
  Qed.
  Lemma fails_mono : forall fmt val t r e, fails ord fmt val t r e -> fails ord true true t r e.
  Proof.
    intros fmt val t r e [H A|u q H A B D].
    - apply fails_format; auto. unfold handled in *. destruct (sql_string t); [|discriminate]. cbn [andb] in *.
      destruct r; auto. destruct (find is_marker (p :: r)); auto. destruct (negb _); auto. cbn [orb] in *.
      destruct fmt, val, (negb (contains "nosqlformat" (t_text p0))), (negb (contains "nosqlvalidation" (t_text p0))); auto.
    - apply (fails_validate ord true true t r e u q); auto. unfold checked in *. destruct (sql_string t); [|discriminate]. cbn [andb] in *.
      destruct r; auto. destruct (find is_marker (p :: r)); auto. destruct val; auto. discriminate.
  Qed.
  Lemma fine_mono : forall fmt val ts, fine ord true true ts -> fine ord fmt val ts.
  Proof. intros fmt val ts F a t r e E X. exact (F a t r e E (fails_mono _ _ _ _ _ X)). Qed.
  Lemma new_tokens_val : forall val val' ts, new_tokens true val ts = new_tokens true val' ts.
  Proof.
    induction ts as [|t ts IH]; cbn [new_tokens]; auto. rewrite IH. f_equal. f_equal. unfold new_text. destruct (sql_string t); auto. destruct ts; auto.
    destruct (find is_marker (p :: ts)); auto. cbn [negb]. rewrite !andb_false_r. reflexivity.
  Qed.
  Lemma same_place_trans : forall fmt val fmt' val' ts, Forall2 same_place (new_tokens fmt val ts) (new_tokens fmt' val' ts).
  Proof.
    induction ts as [|t ts IH]; cbn [new_tokens]; constructor; auto. unfold same_place. cbn [t_type t_start t_end t_text].
    repeat split; auto. intros T. unfold new_text, sql_string. rewrite T. reflexivity.
  Qed.
  Theorem format_alone : forall ts eos r, compute_file_content ord true true ts eos = Ok r ->
    exists r', compute_file_content ord true false ts eos = Ok r' /\ r_changed r' = r_changed r /\ r_content r' = r_content r.
  Proof.
    intros ts eos r H. unfold compute_file_content in *. inv_bind H.
    pose proof (compute_tokens_spec ord true true ts eos) as C. rewrite Hb in C. destruct C as (-> & -> & F).
    destruct (fine_ok true false ts (fine_mono true false ts F)) as [s S]. rewrite S. cbn [rbind].
    pose proof (compute_tokens_spec ord true false ts None) as C. rewrite S in C. destruct C as (-> & _ & _). cbn [c_tokens c_changed c_invalid c_locs] in *.
    rewrite (new_tokens_val false true). inv_bind H. rewrite Hb0. cbn [rbind]. injection H as <-. eexists. split; [reflexivity|]. auto.
  Qed.
  Theorem validate_alone : forall ts eos r, compute_file_content ord true true ts eos = Ok r ->
    exists r', compute_file_content ord false true ts eos = Ok r' /\ r_invalid r' = r_invalid r /\ r_locs r' = r_locs r.
  Proof.
    intros ts eos r H. unfold compute_file_content in *. inv_bind H.
    pose proof (compute_tokens_spec ord true true ts eos) as C. rewrite Hb in C. destruct C as (-> & -> & F).
    destruct (fine_ok false true ts (fine_mono false true ts F)) as [s S]. rewrite S. cbn [rbind].
    pose proof (compute_tokens_spec ord false true ts None) as C. rewrite S in C. destruct C as (-> & _ & _). cbn [c_tokens c_changed c_invalid c_locs] in *.
    inv_bind H. destruct (untokenize_ws _ _ Hb0) as (ws & _ & _ & U). rewrite (U _ (same_place_trans true true false true ts)). cbn [rbind].
    injection H as <-. eexists. split; [reflexivity|]. auto.
  Qed.
End Both.
