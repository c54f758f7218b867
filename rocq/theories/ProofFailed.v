(** C63: the files that a run cannot analyse. *)
From Verif Require Import PyStr Lib Tokeniser Ast Parser Render Validate Api PyTokens FileHandler Grammar GramRound SpecVal SpecApi SpecFile SpecReport SpecNested SpecAnswer SpecStuck ProofNested ProofStuck ProofRaise2
  PyTokenize SpecTokenize SpecSource SpecRun
  ProofFile ProofFile2 ProofFile3 ProofSource ProofRun ProofRun2 ProofRun3 ProofTokenize6 SpecModes ProofModes ProofModes4 ProofModes5 ProofVerdict2 SpecFailed.
Local Open Scope str_scope.
Local Open Scope list_scope.

Lemma errors_stuck : forall q n ord, is_order ord -> parse_sql q = Ok n -> is_sel n = true -> statement n = true -> settled_names n ->
  (exists e, errors_of ord q = Err e /\ tree_exn e /\ exists x, looked x n /\ stuck x)
  \/ (exists es, errors_of ord q = Ok es) /\ ~ exists x, looked x n /\ stuck x.
Proof.
  intros q n ord O P S W A. unfold errors_of. rewrite P. cbn [rbind].
  assert (T : validate_top ord n = validate ord [] n) by (destruct n; try discriminate S; reflexivity). rewrite T. clear T.
  assert (Sh : shaped n = true) by (unfold shaped; rewrite S; unfold statement in W; rewrite W; apply orb_true_r).
  pose proof (validate_exn ord n []) as X. destruct (validate ord [] n) as [es|e] eqn:V.
  - right. split; [eauto|]. intros (x & L & K). destruct (looked_errors _ _ L _ _ _ V) as (K' & es' & E & _). eapply stuck_raises; eauto.
  - left. exists e. split; auto. split; [exact X|]. destruct (validates_or n ord A O n (lk_here n) Sh [] (good_nil n)) as [(es & V')|B]; [congruence|exact B].
Qed.
Lemma holds_handled : forall t n, holds t n -> statement n = true -> exists v Q, handle_sql_string (t_text t) = Ok (v, Q) /\ parse_sql (q_sql Q) = Ok n.
Proof.
  intros t n (p & q & body & E & P & L & F & B) W. destruct (round_trip n W) as (f & R & _). destruct (handle_literal p q body P L F) as (Q & QS & HH).
  assert (FB : format_sql body = Ok f) by (unfold format_sql; rewrite B; exact R). rewrite FB in HH. cbn [rbind] in HH.
  exists (literal p q f), Q. rewrite E. split; [exact HH|]. rewrite QS. exact B.
Qed.
Lemma holds_query : forall t n v Q, holds t n -> handle_sql_string (t_text t) = Ok (v, Q) -> parse_sql (q_sql Q) = Ok n.
Proof.
  intros t n v Q (p & q & body & E & P & L & F & B) H. destruct (handle_literal p q body P L F) as (Q' & QS & HH). rewrite E in H. rewrite H in HH.
  destruct (format_sql body); [|discriminate HH]. cbn [rbind] in HH. injection HH as _ ->. rewrite QS. exact B.
Qed.
Section One.
  Variable ord : fields -> fields.
  Hypothesis Ord : is_order ord.
  Variables fmt val : bool.
  Lemma fails_exactly : forall t r, clear_query t -> (exists e, fails ord fmt val t r e) <-> checked val t r = true /\ broken_query t.
  Proof.
    intros t r C. split.
    - intros (e & [H X|v Q H X X' _]).
      + exfalso. unfold handled in H. apply andb_true_iff in H as [S _]. destruct (C S) as (n & Hn & _ & W & _). destruct (holds_handled t n Hn W) as (v & Q & A & _). congruence.
      + split; auto. unfold checked in H. apply andb_true_iff in H as [S _]. destruct (C S) as (n & Hn & Se & W & A). assert (B := holds_query t n v Q Hn X).
        destruct (errors_stuck _ n ord Ord B Se W A) as [(e' & _ & _ & x & L & K)|((es & Z) & _)]; [exists n, x; auto|congruence].
    - intros (H & n' & x & Hn' & L & K). pose proof H as H0. unfold checked in H0. apply andb_true_iff in H0 as [S _]. destruct (C S) as (n & Hn & Se & W & A).
      destruct (holds_handled t n Hn W) as (v & Q & X & B). assert (n' = n) as -> by (assert (B' := holds_query t n' v Q Hn' X); congruence).
      destruct (errors_stuck _ n ord Ord B Se W A) as [(e' & Z & T & _)|(_ & Z)]; [|destruct Z; eauto].
      exists e'. eapply fails_validate; eauto. intros m ->. cbn in T. intuition discriminate.
  Qed.
  Lemma fails_kind : forall t r e, clear_query t -> fails ord fmt val t r e -> tree_exn e.
  Proof.
    intros t r e C [H X|v Q H X X' _].
    - exfalso. unfold handled in H. apply andb_true_iff in H as [S _]. destruct (C S) as (n & Hn & _ & W & _). destruct (holds_handled t n Hn W) as (v & Q & A & _). congruence.
    - unfold checked in H. apply andb_true_iff in H as [S _]. destruct (C S) as (n & Hn & Se & W & A). assert (B := holds_query t n v Q Hn X).
      destruct (errors_stuck _ n ord Ord B Se W A) as [(e' & Z & T & _)|((es & Z) & _)]; [|congruence]. assert (e' = e) as -> by congruence. exact T.
  Qed.
  Lemma content_exactly : forall src ts, tokens_of_file src ts -> (forall t, In t ts -> clear_query t) ->
    match compute_file_content ord fmt val ts None with
    | Ok _ => ~ exists a t r, ts = a ++ t :: r /\ checked val t r = true /\ broken_query t
    | Err e => tree_exn e /\ exists a t r, ts = a ++ t :: r /\ checked val t r = true /\ broken_query t
    end.
  Proof.
    intros src ts T C. assert (CI : forall a t r, ts = a ++ t :: r -> clear_query t) by (intros a t r ->; apply C; apply in_or_app; right; left; auto).
    pose proof (compute_tokens_spec ord fmt val ts None) as SP. destruct (compute_tokens ord fmt val ts None) as [st|e] eqn:CT.
    - destruct SP as (_ & _ & F). destruct (fine_content ord fmt val src ts T F) as (r & -> & _). intros (a & t & r' & E & B).
      apply (fails_exactly t r' (CI _ _ _ E)) in B as (e & B). eapply F; eauto.
    - unfold compute_file_content. rewrite CT. cbn [rbind]. destruct SP as [SP|(a & t & r & E & X)]; [discriminate|]. split; [eapply fails_kind; eauto|].
      exists a, t, r. split; auto. apply fails_exactly; eauto.
  Qed.
End One.

Lemma one_name_links : forall E srcs, one_name E srcs -> no_links E srcs.
Proof. intros E srcs H f g F G K. rewrite (H f g F G (or_intror K)). reflexivity. Qed.
Lemma summary_prints : forall O l f e, ~ In (EPrintExn f e) (summary O l).
Proof. intros O l f e I. unfold summary in I. apply in_app_or in I as [I|I]; [destruct (f_format O || f_check O)|destruct (f_validate O)]; first [destruct I as [I|[]]; discriminate I|destruct I]. Qed.
Lemma events_exn : forall O s f e, In (EPrintExn f e) (events O s) -> exists c h, s = Did f c (Failed e h).
Proof.
  intros O [|g c [e' h|r]] f e I; cbn [events] in I.
  - destruct I as [I|[]]; discriminate I.
  - destruct I as [I|I]; [discriminate I|]. apply in_app_or in I as [I|I]; [destruct h; [destruct I as [I|[]]; discriminate I|destruct I]|].
    destruct I as [I|[]]. exists c, h. destruct e'; try discriminate I; injection I as -> <-; reflexivity.
  - exfalso. destruct I as [I|I]; [discriminate I|]. apply in_app_or in I as [I|I].
    + destruct (0 <? r_changed r); [|destruct I]. destruct (f_format O); [destruct I as [I|[I|[]]]; discriminate I|]. destruct (f_check O); [destruct I as [I|[]]; discriminate I|destruct I].
    + destruct (_ && _); [|destruct I]. destruct I as [I|I]; [discriminate I|]. destruct (f_verbose O); [|destruct I]. apply in_map_iff in I as (x & X & _). discriminate X.
Qed.

Theorem failed_files : forall E word O srcs c code w, gen_tokens E = generate_tokens word -> is_order (set_order E) -> one_name E srcs ->
  (forall f, In (Some f) (files E srcs) -> open_error E f = None /\ write_error E f = None /\ ordinary word (c (file_id E f)) = true
     /\ forall t, In t (fst (generate_tokens word (c (file_id E f)))) -> clear_query t) ->
  handle_inputs E O srcs (start c) = (code, w) ->
  forall f, In (Some f) (files E srcs) ->
  ((exists e, In (EPrintExn f e) (trace w)) <->
   exists a t r, fst (generate_tokens word (c (file_id E f))) = a ++ t :: r /\ checked (f_validate O || f_verbose O) t r = true /\ broken_query t).
Proof.
  intros E word O srcs c code w GT Ord ON ST H f IF.
  destruct (run_plan E O c srcs code w (one_name_links _ _ ON) H) as (_ & T & _). rewrite T. clear T.
  assert (IP : In (Some f) (plan E [] (files E srcs))).
  { destruct (plan_all E (files E srcs) [] f IF eq_refl) as (g & G & K). assert (In (Some g) (files E srcs)) by (apply (plan_in E _ _ _ G)). rewrite (ON f g); auto. }
  destruct (ST f IF) as (OE & WE & OR & CQ). destruct (ordinary_described word _ OR) as (ts & G & D & _). rewrite G in CQ |- *. cbn [fst] in *.
  pose proof (content_exactly (set_order E) Ord (f_format O || f_check O) (f_validate O || f_verbose O) _ ts D CQ) as X.
  assert (AN : analysed E O f c = match compute_file_content (set_order E) (f_format O || f_check O) (f_validate O || f_verbose O) ts None with Ok r => Done r | Err e => Failed e None end).
  { unfold analysed, result. rewrite OE, WE, GT, G. destruct (compute_file_content _ _ _ ts None); auto. destruct (_ && _); reflexivity. }
  destruct (compute_file_content _ _ _ ts None) as [r|e].
  - split; [|intros B; destruct (X B)]. intros (e & I). exfalso. apply in_app_or in I as [I|I]; [|eapply summary_prints; eauto].
    apply in_flat_map in I as (s & I & J). apply events_exn in J as (c' & h & ->). apply in_map_iff in I as (y & Y & _). destruct y as [g|]; cbn [canon] in Y; [|discriminate Y].
    injection Y as -> _ Y. congruence.
  - destruct X as [TE X]. split; [intros _; exact X|]. intros _. exists e. apply in_or_app. left. apply in_flat_map. exists (Did f c (analysed E O f c)). split.
    + apply (in_map (canon E O c)) in IP. exact IP.
    + rewrite AN. cbn [events]. right. apply in_or_app. right. left. destruct e; try reflexivity. cbn in TE. intuition discriminate.
Qed.

(** The last token is the end marker, so that without validation no query is checked *)
Definition ended (ts : list ptok) : Prop := exists a t, ts = a ++ [t] /\ t_type (snd t) = TEnd.
Lemma step_ended : forall word whole l m s ts, PyTokenize.step word whole l m s = PyTokenize.Done ts None -> ended ts.
Proof.
  intros word whole l m s ts H. assert (FN : forall b, PyTokenize.finish whole b l = PyTokenize.Done ts None -> ended ts).
  { intros b X. unfold PyTokenize.finish in X. injection X as <-. eexists _, _. split; [rewrite app_assoc; reflexivity|reflexivity]. }
  destruct m as [k|]; cbn [PyTokenize.step] in H.
  - unfold at_line in H. destruct (_ && _).
    + destruct s as [|c s]; [eauto|]. destruct (span blank_c (c :: s)) as [ws r]. destruct r as [|d r]; [eauto|]. destruct (existsb (N.eqb d) _).
      * destruct (cut_line (d :: r)). destruct (N.eqb d 35); discriminate H.
      * destruct (_ <? _)%Z; [discriminate H|]. destruct (_ && _); [discriminate H|]. destruct (drop_ins _ _). discriminate H.
    + destruct s; discriminate H.
  - exfalso. unfold inline in H.
    assert (GO : forall a head ends x, go_on l a head ends x <> PyTokenize.Done ts None) by (intros; unfold go_on; destruct (cont_lines _ _ _ _) as [[]|]; discriminate).
    destruct (span blank_c s) as [ws r] eqn:SP. destruct r as [|d r]; [discriminate H|].
    destruct (pseudo word (d :: r)) as [x|k text x|text x|pre q x|pre q body x|] eqn:PS.
    + discriminate H.
    + destruct k; discriminate H.
    + discriminate H.
    + destruct (l_need l).
      * destruct (cut_line x) as [ll rs]. destruct (tail3 false q ll) as [[]|]; [discriminate H|]. eapply GO; eauto.
      * destruct (tail3 true q x) as [[]|]; discriminate H.
    + destruct (endswith _ body); [|discriminate H]. eapply GO; eauto.
    + destruct s; [discriminate SP|discriminate H].
Qed.
Lemma run_ended : forall word whole fuel l m s ts, PyTokenize.run word whole fuel l m s = (ts, None) -> ended ts.
Proof.
  intros word whole. induction fuel as [|fuel IH]; intros l m s ts H; cbn [PyTokenize.run] in H; [discriminate H|].
  destruct (PyTokenize.step word whole l m s) as [us e|us l' m' s'] eqn:S.
  - injection H as <- ->. eapply step_ended; eauto.
  - destruct (PyTokenize.run word whole fuel l' m' s') as [vs e] eqn:R. injection H as <- ->. destruct (IH _ _ _ _ R) as (a & t & -> & T).
    exists (us ++ a), t. split; auto. apply app_assoc.
Qed.
Lemma unchecked : forall word src ts a t r, generate_tokens word src = (ts, None) -> ts = a ++ t :: r -> checked false t r = false.
Proof.
  intros word src ts a t r G E. unfold generate_tokens in G. destruct (tokenize word src) as [us e] eqn:T. injection G as <- ->.
  destruct (run_ended _ _ _ _ _ _ _ T) as (b & z & -> & Z). rewrite map_app in E. cbn [map] in E.
  unfold checked. destruct (sql_string t) eqn:S; cbn [andb]; auto. destruct r as [|y r].
  - exfalso. apply app_inj_tail in E as [_ <-]. unfold sql_string in S. rewrite Z in S. discriminate S.
  - destruct (find is_marker (y :: r)) eqn:F; auto.
Qed.
Theorem formatting_never_fails : forall E word O srcs c code w, gen_tokens E = generate_tokens word -> is_order (set_order E) -> one_name E srcs ->
  f_validate O || f_verbose O = false ->
  (forall f, In (Some f) (files E srcs) -> open_error E f = None /\ write_error E f = None /\ ordinary word (c (file_id E f)) = true
     /\ forall t, In t (fst (generate_tokens word (c (file_id E f)))) -> clear_query t) ->
  handle_inputs E O srcs (start c) = (code, w) ->
  forall f e, In (Some f) (files E srcs) -> ~ In (EPrintExn f e) (trace w).
Proof.
  intros E word O srcs c code w GT Ord ON NV ST H f e IF I. destruct (failed_files E word O srcs c code w GT Ord ON ST H f IF) as [A _].
  destruct A as (a & t & r & X & K & _); [eauto|]. destruct (ST f IF) as (_ & _ & OR & _). destruct (ordinary_described word _ OR) as (ts & G & _).
  rewrite NV in K. rewrite G in X. cbn [fst] in X. rewrite (unchecked _ _ _ _ _ _ G X) in K. discriminate K.
Qed.

(** A check of single tokens, for examples *)
Lemma clear_check : forall t p q body, t_text t = p ++ q ++ body ++ q -> mem p ["" ; "f"] = true -> mem q [""""; "'"] = true ->
  forallb (fun c => negb (N.eqb c (hd 0%N q))) body = true -> parse_sql body = Ok (read_tree body) -> is_sel (read_tree body) = true ->
  statement (read_tree body) = true -> settledb (read_tree body) = true -> holds t (read_tree body) /\ clear_query t.
Proof.
  intros t p q body T P Q B E Se S SN.
  assert (LP : p = "" \/ p = "f") by (unfold mem in P; apply existsb_exists in P as (x & I & X); apply str_eqb_eq in X; subst x; cbn in I; intuition auto).
  assert (LQ : q = """" \/ q = "'") by (unfold mem in Q; apply existsb_exists in Q as (x & I & X); apply str_eqb_eq in X; subst x; cbn in I; intuition auto).
  assert (H : holds t (read_tree body)).
  { exists p, q, body. split; [exact T|]. split; [unfold legal_prefix; destruct LP; subst; cbn; auto|]. split; [unfold legal_quote; destruct LQ; subst; cbn; auto|]. split; [|exact E].
    intros _ c r ->. rewrite forallb_forall in B. specialize (B c (or_introl eq_refl)). intros ->. cbn [hd] in B. rewrite N.eqb_refl in B. discriminate B. }
  split; [exact H|]. intros _. exists (read_tree body). split; [exact H|]. split; [exact Se|]. split; [exact S|]. apply settledb_ok. exact SN.
Qed.
