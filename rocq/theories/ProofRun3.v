(** Formatting, then checking: C36. *)
From Verif Require Import PyStr Lib Tokeniser Ast Parser Render Validate Api PyTokens FileHandler SpecVal SpecFile SpecRun
  ProofFile ProofFile2 ProofRun ProofRun2.
Local Open Scope str_scope.
Local Open Scope list_scope.

Definition tt (t : pytok) := (t_type t, t_text t).

Lemma new_text_cases : forall val t r, new_text true val t r = t_text t \/ (sql_string t = true /\ new_text true val t r = rewritten (t_text t)).
Proof.
  intros. unfold new_text. destruct (sql_string t); auto. destruct r as [|y r]; auto.
  destruct (find is_marker (y :: r)); auto. destruct (contains _ _); auto. destruct (_ && _); auto.
Qed.
Lemma stable_contains : forall val t r, stable_literal t ->
  contains "nosqlformat" (new_text true val t r) = contains "nosqlformat" (t_text t).
Proof.
  intros val t r S. destruct (new_text_cases val t r) as [->|[Q ->]]; auto.
  unfold rewritten. destruct (handle_sql_string (t_text t)) as [[v q]|e] eqn:H; auto. apply (S Q _ _ H).
Qed.
Lemma marker_type : forall t u, t_type t = t_type u -> is_marker t = is_marker u.
Proof. intros t u H. unfold is_marker. rewrite H. auto. Qed.
Lemma find_new : forall val r r2, map tt r2 = map tt (new_tokens true val r) -> (forall t, In t r -> stable_literal t) ->
  match find is_marker r, find is_marker r2 with
  | Some x, Some y => t_type y = t_type x /\ contains "nosqlformat" (t_text y) = contains "nosqlformat" (t_text x)
  | None, None => True
  | _, _ => False
  end.
Proof.
  induction r as [|t r IH]; intros [|t2 r2] H S; cbn in H |- *; auto; try discriminate.
  injection H as H1 H2 H3. rewrite (marker_type t2 t) by auto.
  destruct (is_marker t).
  - split; auto. rewrite H2. apply stable_contains. apply S. left; auto.
  - apply IH; auto. intros; apply S; right; auto.
Qed.
Lemma settled : forall val ts ts2, map tt ts2 = map tt (new_tokens true val ts) -> (forall t, In t ts -> stable_literal t) ->
  differences ts2 (new_tokens true val ts2) = 0.
Proof.
  induction ts as [|t r IH]; intros [|t2 r2] H S; cbn in H |- *; auto; try discriminate.
  injection H as H1 H2 H3.
  rewrite IH by (auto; intros; apply S; right; auto). rewrite Nat.add_0_r.
  assert (X : new_text true val t2 r2 = t_text t2).
  2:{ rewrite X, str_eqb_refl. auto. }
  assert (SQ : sql_string t2 = true -> sql_string t = true).
  { intros Q. destruct (new_text_cases val t r) as [Z|[Z _]]; auto. unfold sql_string in *. rewrite H1, H2, Z in Q. auto. }
  assert (ST : stable_literal t) by (apply S; left; auto).
  destruct (new_text_cases val t2 r2) as [Z|[Q Z]]; auto.
  specialize (SQ Q).
  assert (RR : t_text t2 = rewritten (t_text t) -> rewritten (t_text t2) = t_text t2).
  { intros ->. unfold rewritten at 2 3. destruct (handle_sql_string (t_text t)) as [[v q]|e] eqn:HH.
    - destruct (ST SQ _ _ HH) as ((q' & E) & _). unfold rewritten. rewrite E. auto.
    - unfold rewritten. rewrite HH. auto. }
  pose proof (find_new val r r2 H3 ltac:(intros; apply S; right; auto)) as F.
  unfold new_text in H2. rewrite SQ in H2.
  destruct r as [|y r].
  - rewrite Z. auto.
  - destruct r2 as [|y2 r2]; [discriminate|].
    destruct (find is_marker (y :: r)) as [x|] eqn:FX; destruct (find is_marker (y2 :: r2)) as [x2|] eqn:FY; try contradiction.
    + destruct F as [F1 F2]. destruct (contains "nosqlformat" (t_text x)) eqn:C.
      * unfold new_text. rewrite Q, FY, F2. auto.
      * cbn [negb andb] in H2. rewrite andb_false_r in H2. cbn [andb] in H2. rewrite Z. auto.
    + unfold new_text. rewrite Q, FY. auto.
Qed.

Section Twice.
  Variable E : env.
  Variables v w : bool.
  Let O1 := mk_opts true false v w.
  Let O2 := mk_opts false true v w.
  Definition comp (s : str) : R cresult :=
    let '(ts, eos) := gen_tokens E s in compute_file_content (set_order E) true (v || w) ts eos.
  Definition calm (s : str) : Prop := match comp s with Ok r => r_changed r = 0 | Err _ => True end.

  Lemma becomes_calm : forall s r, stable_content E (v || w) s -> comp s = Ok r -> 0 < r_changed r -> calm (r_content r).
  Proof.
    intros s r S C P. unfold calm. unfold comp in C. destruct (gen_tokens E s) as [ts eos] eqn:G.
    destruct (compute_tokens (set_order E) true (v || w) ts eos) as [st|e] eqn:CT.
    2:{ unfold compute_file_content in C. rewrite CT in C. discriminate. }
    destruct (S ts eos st r G CT C P) as (SL & ts2 & G2 & M). unfold comp. rewrite G2.
    destruct (compute_file_content (set_order E) true (v || w) ts2 None) as [r2|e] eqn:C2; auto.
    destruct (compute_tokens (set_order E) true (v || w) ts2 None) as [st2|e] eqn:CT2.
    2:{ unfold compute_file_content in C2. rewrite CT2 in C2. discriminate. }
    destruct (change_count _ _ _ _ _ _ _ CT2 C2) as [D _]. rewrite D.
    pose proof (compute_tokens_spec (set_order E) true (v || w) ts2 None) as X. rewrite CT2 in X. destruct X as (-> & _).
    pose proof (compute_tokens_spec (set_order E) true (v || w) ts eos) as X. rewrite CT in X. destruct X as (-> & _).
    cbn [c_tokens] in *. apply settled with (ts := ts); auto.
  Qed.

  Lemma result1 : forall f c, result E O1 f c = comp (c (file_id E f)).
  Proof. reflexivity. Qed.
  Lemma result2 : forall f c, result E O2 f c = comp (c (file_id E f)).
  Proof. reflexivity. Qed.

  Definition good (c : N -> str) (f : str) : Prop := open_error E f <> None \/ calm (c (file_id E f)).
  Definition ready (c : N -> str) (f : str) : Prop :=
    write_error E f = None /\ (stable_content E (v || w) (c (file_id E f)) \/ calm (c (file_id E f))).

  (** what one analysis with --format does to the contents *)
  Lemma step1 : forall f c, ready c f ->
    let c' := after E O1 f c (analysed E O1 f c) in
    good c' f /\ (forall k, c' k = c k \/ (~ calm (c k) /\ calm (c' k))).
  Proof.
    intros f c (W & S). unfold analysed. rewrite result1, W. cbv zeta.
    destruct (open_error E f) as [e|] eqn:OE.
    { cbn. split; auto. left. congruence. }
    destruct (comp (c (file_id E f))) as [r|e] eqn:C.
    2:{ cbn. split; auto. right. unfold calm. rewrite C. auto. }
    unfold after. destruct (0 <? r_changed r) eqn:CH; cbn [andb f_format O1].
    - apply Nat.ltb_lt in CH.
      assert (NC : ~ calm (c (file_id E f))). { unfold calm. rewrite C. lia. }
      assert (K : calm (r_content r)). { eapply becomes_calm; eauto. destruct S; tauto. }
      rewrite (proj2 (Nat.ltb_lt 0 (r_changed r))) by auto. cbn. split.
      + right. unfold upd. rewrite N.eqb_refl. auto.
      + intros k. unfold upd. destruct (N.eqb_spec k (file_id E f)); [subst|]; auto.
    - rewrite CH. cbn. split; auto. right. unfold calm. rewrite C. apply Nat.ltb_ge in CH. lia.
  Qed.

  Fixpoint kept (seen : list str) (l : list (option str)) : list str :=
    match l with
    | [] => []
    | None :: r => kept seen r
    | Some f :: r => if mem (abspath E f) seen then kept seen r else f :: kept (abspath E f :: seen) r
    end.
  Lemma keeps_good : forall l seen c f, (forall g, In (Some g) l -> ready c g) -> good c f ->
    good (contents_after E O1 c (log E O1 seen c l)) f.
  Proof.
    induction l as [|[g|] l IH]; intros seen c f R G; cbn [log]; auto.
    - destruct (mem (abspath E g) seen); [apply IH; auto; intros; apply R; right; auto|].
      cbn [contents_after]. destruct (step1 g c (R g (or_introl eq_refl))) as [S1 S2]. apply IH.
      + intros h I. destruct (R h (or_intror I)) as [W X]. split; auto.
        destruct (S2 (file_id E h)) as [->|[? ?]]; auto.
      + destruct G as [G|G]; [left; auto|right]. destruct (S2 (file_id E f)) as [->|[? ?]]; auto.
    - cbn. apply IH; auto. intros; apply R; right; auto.
  Qed.
  Lemma run1_good : forall l seen c f, (forall g, In (Some g) l -> ready c g) -> In f (kept seen l) ->
    good (contents_after E O1 c (log E O1 seen c l)) f.
  Proof.
    induction l as [|[g|] l IH]; intros seen c f R I; cbn [log kept] in *; auto.
    - destruct I.
    - destruct (mem (abspath E g) seen); [apply IH; auto; intros; apply R; right; auto|].
      cbn [contents_after]. destruct (step1 g c (R g (or_introl eq_refl))) as [S1 S2].
      assert (R' : forall h, In (Some h) l -> ready (after E O1 g c (analysed E O1 g c)) h).
      { intros h J. destruct (R h (or_intror J)) as [W X]. split; auto.
        destruct (S2 (file_id E h)) as [->|[? ?]]; auto. }
      destruct I as [<-|I]; [apply keeps_good; auto|apply IH; auto].
    - cbn. apply IH; auto. intros; apply R; right; auto.
  Qed.
  Lemma run2_calm : forall l seen c, (forall f, In f (kept seen l) -> good c f) ->
    forall f b r, In (Did f b (Done r)) (log E O2 seen c l) -> r_changed r = 0.
  Proof.
    induction l as [|[g|] l IH]; intros seen c G f b r I; cbn [log kept] in *.
    - destruct I.
    - destruct (mem (abspath E g) seen); [eapply IH; eauto|].
      assert (A : after E O2 g c (analysed E O2 g c) = c).
      { unfold analysed. destruct (open_error E g); auto. destruct (result E O2 g c); auto.
        cbn [f_format O2]. rewrite andb_false_r. unfold after. cbn [f_format O2]. rewrite andb_false_r. auto. }
      rewrite A in I. destruct I as [I|I].
      + injection I as -> -> AN. destruct (G f (or_introl eq_refl)) as [X|X].
        * unfold analysed in AN. destruct (open_error E f); [discriminate|contradiction].
        * unfold analysed in AN. destruct (open_error E f); [discriminate|]. rewrite result2 in AN.
          unfold calm in X. destruct (comp (b (file_id E f))); [|discriminate].
          cbn [f_format O2] in AN. rewrite andb_false_r in AN. injection AN as <-. auto.
      + eapply IH; [|exact I]. intros; apply G; right; auto.
    - destruct I as [I|I]; [discriminate|]. eapply IH; eauto.
  Qed.

  Theorem format_then_check : forall srcs c code1 w1 code2 w2,
    (forall f, In (Some f) (files E srcs) -> write_error E f = None /\ stable_content E (v || w) (c (file_id E f))) ->
    handle_inputs E O1 srcs (start c) = (code1, w1) ->
    handle_inputs E O2 srcs (start (contents w1)) = (code2, w2) ->
    (forall r, In r (results E O2 (contents w1) (trace w2)) -> r_changed r = 0)
    /\ In (EPrint "No file would be reformatted.") (trace w2)
    /\ contents w2 = contents w1
    /\ (v = false -> code2 = 0).
  Proof.
    intros srcs c code1 w1 code2 w2 H H1 H2.
    pose proof (run_refines E O1 srcs c) as R. rewrite H1 in R. cbv zeta in R. destruct R as (RC & _ & _).
    pose proof (run_refines E O2 srcs (contents w1)) as R. rewrite H2 in R. cbv zeta in R. destruct R as (RC2 & RT2 & RX2).
    assert (Z : forall r, In r (results E O2 (contents w1) (trace w2)) -> r_changed r = 0).
    { intros r I. rewrite RT2, results_app, (quiet_results E O2 (summary O2 _)), app_nil_r in I by apply summary_quiet.
      rewrite results_log in I by apply log_true. apply in_flat_map in I as ([|f b [e h|r']] & I & J); try contradiction.
      destruct J as [->|[]]. eapply run2_calm; [|exact I]. intros g G. rewrite RC. apply run1_good; auto.
      intros h J. destruct (H h J). split; auto. }
    assert (S0 : list_sum (map r_changed (results E O2 (contents w1) (trace w2))) = 0).
    { revert Z. generalize (results E O2 (contents w1) (trace w2)) as rs. induction rs as [|r rs IH]; cbn; auto.
      intros Z. rewrite (Z r) by auto. apply IH. auto. }
    split; auto. split; [|split].
    - destruct (totals E O2 srcs _ _ _ H2) as (body & T). rewrite T.
      apply in_or_app. right. apply in_or_app. left. cbn [O2 f_format f_check orb]. rewrite S0. left. reflexivity.
    - destruct (not_written E O2 srcs _ _ _ H2) as [_ X]; auto.
    - intros V. destruct (exit_status E O2 srcs _ _ _ H2) as ([X|X] & IFF); auto.
      apply IFF in X as [[_ (r & I & P)]|[X _]].
      + rewrite (Z r I) in P. lia.
      + cbn in X. congruence.
  Qed.
End Twice.
