(** C65: what --validate says of files whose queries are on tables. *)
From Verif Require Import PyStr Lib Tokeniser Ast Parser Render Validate Api PyTokens FileHandler Grammar GramRound SpecVal SpecApi SpecFile SpecReport SpecNested SpecAnswer SpecStuck ProofNested ProofStuck ProofRaise2
  SpecTables ProofTables SpecScope SpecNamed ProofNamed PyTokenize SpecTokenize SpecSource SpecRun
  ProofFile ProofFile2 ProofFile3 ProofSource ProofRun ProofRun2 ProofRun3 ProofTokenize6 SpecModes ProofModes ProofModes4 ProofModes5 ProofVerdict2 SpecFailed ProofFailed SpecExact.
Local Open Scope str_scope.
Local Open Scope list_scope.

Lemma errors_tables : forall q n ord, is_order ord -> parse_sql q = Ok n -> is_sel n = true -> statement n = true -> on_named_tables n ->
  (exists e, errors_of ord q = Err e /\ tree_exn e /\ exists x, looked x n /\ halts x)
  \/ (exists es, errors_of ord q = Ok es /\ (es <> [] <-> exists x S, seen x S [] n /\ (faulty x \/ unknown x S))) /\ ~ exists x, looked x n /\ halts x.
Proof.
  intros q n ord O P S W T. unfold errors_of. rewrite P. cbn [rbind].
  assert (TT : validate_top ord n = validate ord [] n) by (destruct n; try discriminate S; reflexivity). rewrite TT. clear TT.
  assert (Sh : shaped2 n = true) by (apply shaped_without; unfold shaped; rewrite S; unfold statement in W; rewrite W; apply orb_true_r).
  pose proof (validate_exn ord n []) as X. pose proof (named_decides ord O n [] [] Sh T good_nil) as D. unfold wrong in D.
  destruct (validate ord [] n) as [es|e] eqn:V.
  - pose proof (named_halts ord O n es Sh T V) as HH. right. split; [|exact HH]. exists es. split; auto.
    destruct D as [(es' & E & Ds)|D]; [injection E as <-|contradiction].
    split; [intros N; destruct Ds; [contradiction|auto]|]. eapply named_wrong; eauto.
  - left. exists e. split; auto. split; [exact X|]. destruct D as [(es & E & _)|D]; [discriminate E|exact D].
Qed.
Section One.
  Variable ord : fields -> fields.
  Hypothesis Ord : is_order ord.
  Variables fmt val : bool.
  Lemma holds_one : forall t n n', holds t n -> holds t n' -> statement n = true -> n' = n.
  Proof. intros t n n' H H' W. destruct (holds_handled t n H W) as (v & Q & X & B). assert (B' := holds_query t n' v Q H' X). congruence. Qed.
  Lemma fails_tables : forall t r, table_query t -> (exists e, fails ord fmt val t r e) <-> checked val t r = true /\ halting_query t.
  Proof.
    intros t r C. split.
    - intros (e & [H X|v Q H X X' _]).
      + exfalso. unfold handled in H. apply andb_true_iff in H as [S _]. destruct (C S) as (n & Hn & _ & W & _). destruct (holds_handled t n Hn W) as (v & Q & A & _). congruence.
      + split; auto. unfold checked in H. apply andb_true_iff in H as [S _]. destruct (C S) as (n & Hn & Se & W & A). assert (B := holds_query t n v Q Hn X).
        destruct (errors_tables _ n ord Ord B Se W A) as [(e' & _ & _ & x & L & K)|((es & Z & _) & _)]; [exists n, x; auto|congruence].
    - intros (H & n' & x & Hn' & L & K). pose proof H as H0. unfold checked in H0. apply andb_true_iff in H0 as [S _]. destruct (C S) as (n & Hn & Se & W & A).
      assert (n' = n) as -> by (eapply holds_one; eauto). destruct (holds_handled t n Hn W) as (v & Q & X & B).
      destruct (errors_tables _ n ord Ord B Se W A) as [(e' & Z & T & _)|(_ & Z)]; [|destruct Z; eauto].
      exists e'. eapply fails_validate; eauto. intros m ->. cbn in T. intuition discriminate.
  Qed.
  Lemma fails_tables_kind : forall t r e, table_query t -> fails ord fmt val t r e -> tree_exn e.
  Proof.
    intros t r e C [H X|v Q H X X' _].
    - exfalso. unfold handled in H. apply andb_true_iff in H as [S _]. destruct (C S) as (n & Hn & _ & W & _). destruct (holds_handled t n Hn W) as (v & Q & A & _). congruence.
    - unfold checked in H. apply andb_true_iff in H as [S _]. destruct (C S) as (n & Hn & Se & W & A). assert (B := holds_query t n v Q Hn X).
      destruct (errors_tables _ n ord Ord B Se W A) as [(e' & Z & T & _)|((es & Z & _) & _)]; [|congruence]. assert (e' = e) as -> by congruence. exact T.
  Qed.
  Lemma report_checked : forall t r, report_of ord val t r = if checked val t r then match query_errors ord (t_text t) with [] => [] | es => [(fst (t_start t), es)] end else [].
  Proof. reflexivity. Qed.
  Lemma report_tables : forall t r, table_query t -> ~ (checked val t r = true /\ halting_query t) ->
    (length (report_of ord val t r) = 1 /\ checked val t r = true /\ faulty_query t)
    \/ (report_of ord val t r = [] /\ ~ (checked val t r = true /\ faulty_query t)).
  Proof.
    intros t r C NH. rewrite report_checked. destruct (checked val t r) eqn:CH; [|right; split; auto; intros [X _]; discriminate X].
    pose proof CH as S. unfold checked in S. apply andb_true_iff in S as [S _]. destruct (C S) as (n & Hn & Se & W & A). destruct (holds_handled t n Hn W) as (v & Q & X & B).
    unfold query_errors. rewrite X. destruct (errors_tables _ n ord Ord B Se W A) as [(e' & _ & _ & x & L & K)|((es & Z & I) & _)]; [destruct NH; split; auto; exists n, x; auto|].
    rewrite Z. destruct es as [|m es].
    - right. split; auto. intros (_ & n' & x & S' & Hn' & L & K). assert (n' = n) as -> by (eapply holds_one; eauto). destruct (proj2 I); eauto.
    - left. split; auto. split; auto. destruct (proj1 I) as (x & S' & L & K); [discriminate|]. exists n, x, S'. auto.
  Qed.
  Lemma reports_tables : forall ts, (forall t, In t ts -> table_query t) -> ~ halting_file val ts -> faults val ts (length (reports ord val ts)).
  Proof.
    induction ts as [|t r IH]; intros C NH; [constructor|]. cbn [reports]. rewrite app_length.
    assert (F : faults val r (length (reports ord val r))).
    { apply IH; [intros x I; apply C; right; auto|]. intros (a & x & r' & -> & K). apply NH. exists (t :: a), x, r'. split; auto. }
    destruct (report_tables t r) as [(-> & K & Fa)|(-> & K)]; [apply C; left; auto|intros K; apply NH; exists [], t, r; auto| |].
    - apply fs_bad; auto.
    - apply fs_good; auto.
  Qed.
  Lemma faults_one : forall ts k k', faults val ts k -> faults val ts k' -> k = k'.
  Proof. intros ts k k' F. revert k'. induction F; intros k' F'; inversion F'; subst; auto; exfalso; tauto. Qed.
  Lemma faults_some : forall ts k, faults val ts k -> 0 < k <-> exists a t r, ts = a ++ t :: r /\ checked val t r = true /\ faulty_query t.
  Proof.
    intros ts k F. induction F as [|t r k C Fa F IH|t r k N F IH].
    - split; [lia|]. intros (a & t & r & E & _). destruct a; discriminate E.
    - split; [|lia]. intros _. exists [], t, r. auto.
    - rewrite IH. split; intros (a & x & r' & E & K).
      + exists (t :: a), x, r'. subst r. auto.
      + destruct a as [|y a]; [injection E as <- <-; contradiction|]. injection E as <- ->. exists a, x, r'. auto.
  Qed.
  Lemma content_tables : forall src ts, tokens_of_file src ts -> (forall t, In t ts -> table_query t) ->
    match compute_file_content ord fmt val ts None with
    | Ok r => ~ halting_file val ts /\ faults val ts (r_invalid r)
    | Err e => tree_exn e /\ halting_file val ts
    end.
  Proof.
    intros src ts T C. assert (CI : forall a t r, ts = a ++ t :: r -> table_query t) by (intros a t r ->; apply C; apply in_or_app; right; left; auto).
    pose proof (compute_tokens_spec ord fmt val ts None) as SP. destruct (compute_tokens ord fmt val ts None) as [st|e] eqn:CT.
    - destruct SP as (_ & _ & F). destruct (fine_content ord fmt val src ts T F) as (r & -> & -> & _).
      assert (NH : ~ halting_file val ts). { intros (a & t & r' & E & B). apply (fails_tables t r' (CI _ _ _ E)) in B as (e & B). eapply F; eauto. }
      split; auto. apply reports_tables; auto.
    - unfold compute_file_content. rewrite CT. cbn [rbind]. destruct SP as [SP|(a & t & r & E & X)]; [discriminate|]. split; [eapply fails_tables_kind; eauto|].
      exists a, t, r. split; auto. apply fails_tables; eauto.
  Qed.
End One.

Section Run.
  Variable E : env.
  Variable word : N -> bool.
  Variable O : options.
  Variable srcs : list str.
  Variable c : N -> str.
  Hypothesis GT : gen_tokens E = generate_tokens word.
  Hypothesis Ord : is_order (set_order E).
  Hypothesis ON : one_name E srcs.
  Definition tokens (f : str) : list pytok := fst (generate_tokens word (c (file_id E f))).
  Hypothesis ST : forall f, In (Some f) (files E srcs) -> open_error E f = None /\ write_error E f = None /\ ordinary word (c (file_id E f)) = true
     /\ forall t, In t (tokens f) -> table_query t.
  Let val := f_validate O || f_verbose O.
  Lemma analysed_tables : forall f, In (Some f) (files E srcs) ->
    (exists e, analysed E O f c = Failed e None /\ tree_exn e /\ halting_file val (tokens f))
    \/ (exists r, analysed E O f c = Done r /\ ~ halting_file val (tokens f) /\ faults val (tokens f) (r_invalid r)).
  Proof.
    intros f IF. destruct (ST f IF) as (OE & WE & OR & CQ). unfold tokens in *. destruct (ordinary_described word _ OR) as (ts & G & D & _). rewrite G in CQ |- *. cbn [fst] in *.
    pose proof (content_tables (set_order E) Ord (f_format O || f_check O) val _ ts D CQ) as X.
    assert (AN : analysed E O f c = match compute_file_content (set_order E) (f_format O || f_check O) val ts None with Ok r => Done r | Err e => Failed e None end).
    { unfold analysed, result. rewrite OE, WE, GT, G. fold val. destruct (compute_file_content _ _ _ ts None); auto. destruct (_ && _); reflexivity. }
    rewrite AN. destruct (compute_file_content _ _ _ ts None); [right|left]; eexists; split; eauto.
  Qed.
  Lemma planned : forall f, In (Some f) (files E srcs) -> In (Some f) (plan E [] (files E srcs)).
  Proof. intros f IF. destruct (plan_all E (files E srcs) [] f IF eq_refl) as (g & G & K). assert (In (Some g) (files E srcs)) by (apply (plan_in E _ _ _ G)). rewrite (ON f g); auto. Qed.
  Variable code : nat.
  Variable w : world.
  Hypothesis H : handle_inputs E O srcs (start c) = (code, w).
  Lemma shown : forall f x, In (Some f) (files E srcs) -> In x (events O (Did f c (analysed E O f c))) -> In x (trace w).
  Proof.
    intros f x IF I. destruct (run_plan E O c srcs code w (one_name_links _ _ ON) H) as (_ & -> & _). apply in_or_app. left. apply in_flat_map.
    exists (Did f c (analysed E O f c)). split; auto. apply planned in IF. apply (in_map (canon E O c)) in IF. exact IF.
  Qed.
  Lemma counted : forall f k, In (Some f) (files E srcs) -> val = true -> ~ halting_file val (tokens f) -> faults val (tokens f) k -> 0 < k ->
    In (EPrint ("invalid queries in " ++ f ++ " (" ++ str_of_nat k ++ " invalid SQL)")) (trace w).
  Proof.
    intros f k IF V NH F K. eapply shown; eauto. destruct (analysed_tables f IF) as [(e & _ & _ & X)|(r & -> & _ & F')]; [contradiction|].
    assert (r_invalid r = k) as <- by (eapply faults_one; eauto). cbn [events]. right. apply in_or_app. right. fold val. rewrite V, andb_true_r. apply Nat.ltb_lt in K. rewrite K. left. auto.
  Qed.
  Lemma failed_tables : forall f, In (Some f) (files E srcs) -> (exists e, In (EPrintExn f e) (trace w)) <-> halting_file val (tokens f).
  Proof.
    intros f IF. split.
    - intros (e & I). destruct (run_plan E O c srcs code w (one_name_links _ _ ON) H) as (_ & T & _). rewrite T in I. apply in_app_or in I as [I|I]; [|exfalso; eapply summary_prints; eauto].
      apply in_flat_map in I as (s & I & J). apply events_exn in J as (c' & h & ->). apply in_map_iff in I as (y & Y & _). destruct y as [g|]; cbn [canon] in Y; [|discriminate Y].
      injection Y as -> _ Y. destruct (analysed_tables f IF) as [(e' & _ & _ & X)|(r & R & _)]; [exact X|congruence].
    - intros HF. destruct (analysed_tables f IF) as [(e & AN & TE & _)|(r & _ & X & _)]; [|contradiction]. exists e. eapply shown; eauto. rewrite AN. cbn [events]. right. left.
      destruct e; try reflexivity. cbn in TE. intuition discriminate.
  Qed.
  Lemma sum_some : forall g l, 0 < sum g l <-> exists f b r, In (Did f b (Done r)) l /\ 0 < g r.
  Proof.
    intros g l. unfold sum. induction l as [|s l IH]; cbn [map list_sum fold_right].
    - split; [intros X; inversion X|intros (f & b & r & [] & _)].
    - change (fold_right Nat.add 0 (map _ l)) with (list_sum (map (fun s => match s with Did _ _ (Done r) => g r | _ => 0 end) l)).
      split.
      + intros X. destruct s as [|f b [e h|r]]; try (apply IH in X as (f' & b' & r' & I & K); exists f', b', r'; split; auto; right; auto; fail).
        destruct (Nat.eq_dec (g r) 0) as [Z|Z]; [|exists f, b, r; split; [left; auto|lia]].
        destruct (proj1 IH) as (f' & b' & r' & I & K); [lia|]. exists f', b', r'. split; auto. right. auto.
      + intros (f & b & r & [-> |I] & K); [lia|]. assert (0 < list_sum (map (fun s => match s with Did _ _ (Done r) => g r | _ => 0 end) l)) by (apply IH; eauto). lia.
  Qed.
  Lemma status : f_validate O = true -> f_check O = false ->
    (code = 1 /\ exists f a t r, In (Some f) (files E srcs) /\ ~ halting_file true (tokens f) /\ tokens f = a ++ t :: r /\ checked true t r = true /\ faulty_query t)
    \/ (code = 0 /\ ~ exists f a t r, In (Some f) (files E srcs) /\ ~ halting_file true (tokens f) /\ tokens f = a ++ t :: r /\ checked true t r = true /\ faulty_query t).
  Proof.
    intros V Ck. assert (VV : val = true) by (unfold val; rewrite V; auto). destruct (run_plan E O c srcs code w (one_name_links _ _ ON) H) as (_ & _ & Z). cbv zeta in Z.
    rewrite Ck, V in Z. cbn [andb orb] in Z. unfold invalid_queries in Z. destruct (Nat.ltb_spec 0 (sum r_invalid (map (canon E O c) (plan E [] (files E srcs))))) as [P|P].
    - left. split; auto. apply sum_some in P as (f & b & r & I & K). apply in_map_iff in I as (y & Y & I). destruct y as [g|]; cbn [canon] in Y; [|discriminate Y]. injection Y as -> <- AN.
      apply plan_in in I as [I _]. destruct (analysed_tables f I) as [(e & AN' & _)|(r' & AN' & NH & F)]; [congruence|]. rewrite AN in AN'. injection AN' as <-. rewrite VV in *.
      apply (proj1 (faults_some _ _ _ F)) in K as (a & t & r' & K). exists f, a, t, r'. tauto.
    - right. split; auto. intros (f & a & t & r & IF & NH & T & C & Fa). assert (0 < sum r_invalid (map (canon E O c) (plan E [] (files E srcs)))); [|lia].
      apply sum_some. destruct (analysed_tables f IF) as [(e & _ & _ & X)|(r' & AN & _ & F)]; [rewrite VV in X; contradiction|].
      exists f, c, r'. split; [|rewrite VV in F; apply (faults_some _ _ _ F); exists a, t, r; auto]. apply planned in IF. apply (in_map (canon E O c)) in IF. cbn [canon] in IF. rewrite AN in IF. exact IF.
  Qed.
End Run.

(** A check of single tokens, for examples *)
Lemma table_check : forall t p q body, t_text t = p ++ q ++ body ++ q -> mem p ["" ; "f"] = true -> mem q [""""; "'"] = true ->
  forallb (fun c => negb (N.eqb c (hd 0%N q))) body = true -> parse_sql body = Ok (read_tree body) -> is_sel (read_tree body) = true ->
  statement (read_tree body) = true -> on_named_tablesb (read_tree body) = true -> table_query t.
Proof.
  intros t p q body T P Q B E Se S SN.
  assert (LP : p = "" \/ p = "f") by (unfold mem in P; apply existsb_exists in P as (x & I & X); apply str_eqb_eq in X; subst x; cbn in I; intuition auto).
  assert (LQ : q = """" \/ q = "'") by (unfold mem in Q; apply existsb_exists in Q as (x & I & X); apply str_eqb_eq in X; subst x; cbn in I; intuition auto).
  assert (H : holds t (read_tree body)).
  { exists p, q, body. split; [exact T|]. split; [unfold legal_prefix; destruct LP; subst; cbn; auto|]. split; [unfold legal_quote; destruct LQ; subst; cbn; auto|]. split; [|exact E].
    intros _ c r ->. rewrite forallb_forall in B. specialize (B c (or_introl eq_refl)). intros ->. cbn [hd] in B. rewrite N.eqb_refl in B. discriminate B. }
  intros _. exists (read_tree body). split; [exact H|]. split; [exact Se|]. split; [exact S|]. apply on_named_tablesb_ok. exact SN.
Qed.
Definition table_tok (l : list (str * str * str)) (t : pytok) : bool :=
  negb (sql_string t) || existsb (fun x => let '(p, q, body) := x in
    str_eqb (t_text t) (p ++ q ++ body ++ q) && mem p [""; "f"] && mem q [""""; "'"] && forallb (fun c => negb (N.eqb c (hd 0%N q))) body
    && match parse_sql body with Ok n => is_sel n && statement n && on_named_tablesb n | Err _ => false end) l.
Lemma table_toks : forall l ts, forallb (table_tok l) ts = true -> forall t, In t ts -> table_query t.
Proof.
  intros l ts H t I. rewrite forallb_forall in H. specialize (H t I). unfold table_tok in H. apply orb_true_iff in H as [H|H]; [intros S; rewrite S in H; discriminate H|].
  apply existsb_exists in H as ([[p q] body] & _ & H). rewrite !andb_true_iff in H. destruct H as [[[[T P] Q] B] X]. apply str_eqb_eq in T.
  destruct (parse_sql body) as [n|] eqn:E; [|discriminate X]. rewrite !andb_true_iff in X. destruct X as [[X1 X2] X3].
  assert (Rd : read_tree body = n) by (unfold read_tree; rewrite E; reflexivity). apply (table_check t p q body); auto; rewrite Rd; auto.
Qed.
