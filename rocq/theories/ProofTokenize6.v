(** The new content of a file is read by Python as the tokens written. *)
From Verif Require Import PyStr Lib Tokeniser Ast Parser Render Validate Api PyTokens FileHandler Grammar GramAlike GramStmt GramCase GramRound SpecVal SpecFile SpecRun
  SpecStable SpecRound ProofFile ProofFile2 ProofFile3 ProofRun3 ProofStable SpecSource ProofSource ProofSource2 PyTokenize SpecTokenize
  ProofLex ProofLex2 ProofTokenize ProofTokenize2 ProofTokenize3 ProofTokenize4 ProofTokenize5.
Local Open Scope str_scope.
Local Open Scope list_scope.

(** ** The end of a literal *)
Lemma closes_length : forall q s, closes q s = true -> length q <= length s.
Proof.
  intros q. assert (X : forall n s, length s <= n -> closes q s = true -> length q <= length s).
  { induction n as [|n IH]; intros s L H; (destruct s as [|c r]; [|cbn in L]).
    - cbn [closes] in H. apply orb_true_iff in H as [H|H]; [apply str_eqb_eq in H; subst; cbn; lia|rewrite andb_false_r in H; discriminate].
    - lia.
    - cbn [closes] in H. apply orb_true_iff in H as [H|H]; [apply str_eqb_eq in H; subst; cbn; lia|rewrite andb_false_r in H; discriminate].
    - cbn [closes] in H. apply orb_true_iff in H as [H|H]; [apply str_eqb_eq in H; subst; cbn; lia|]. apply andb_true_iff in H as [_ H].
      destruct (N.eqb c 92).
      + destruct r as [|d r]; [discriminate|]. apply IH in H; cbn in *; lia.
      + apply andb_true_iff in H as [_ H]. apply IH in H; cbn in *; lia. }
  intros s. apply (X (length s)); auto.
Qed.
Lemma closes_end : forall q s, closes q s = true -> exists y, s = y ++ q.
Proof.
  intros q. assert (X : forall n s, length s <= n -> closes q s = true -> exists y, s = y ++ q).
  { induction n as [|n IH]; intros s L H; (destruct s as [|c r]; [|cbn in L]).
    - cbn [closes] in H. apply orb_true_iff in H as [H|H]; [apply str_eqb_eq in H; subst; exists []; auto|rewrite andb_false_r in H; discriminate].
    - lia.
    - cbn [closes] in H. apply orb_true_iff in H as [H|H]; [apply str_eqb_eq in H; subst; exists []; auto|rewrite andb_false_r in H; discriminate].
    - cbn [closes] in H. apply orb_true_iff in H as [H|H]; [apply str_eqb_eq in H; subst; exists []; auto|]. apply andb_true_iff in H as [_ H].
      destruct (N.eqb c 92).
      + destruct r as [|d r]; [discriminate|]. apply IH in H as [y ->]; [|cbn in *; lia]. exists (c :: d :: y). auto.
      + apply andb_true_iff in H as [_ H]. apply IH in H as [y ->]; [|cbn in *; lia]. exists (c :: y). auto. }
  intros s. apply (X (length s)); auto.
Qed.
Lemma startswith_long : forall p s b, length p <= length s -> startswith p (s ++ b) = startswith p s.
Proof.
  induction p as [|c p IH]; intros [|d s] b L; cbn in *; auto; try lia. rewrite IH by lia. auto.
Qed.
Lemma closes_tail3 : forall q, q <> 92%N -> forall s, closes [q; q; q] s = true -> forall b, tail3 true q (s ++ b) = Some (s, b).
Proof.
  intros q Q s. assert (X : forall n s, length s <= n -> closes [q; q; q] s = true -> forall b, tail3 true q (s ++ b) = Some (s, b)).
  { clear s. induction n as [|n IH]; intros s L H b; (destruct s as [|c r]; [discriminate H|]); cbn in L; [lia|].
    cbn [closes] in H. apply orb_true_iff in H as [H|H].
    - apply str_eqb_eq in H. injection H as -> ->. cbn [app tail3 startswith skipn]. rewrite N.eqb_refl. cbn. destruct b; reflexivity.
    - apply andb_true_iff in H as [NS H]. apply negb_true_iff in NS. cbn [app tail3].
      destruct (N.eqb_spec c 92) as [->|N92].
      + destruct r as [|d r]; [discriminate|]. apply N.eqb_neq in Q. rewrite (N.eqb_sym 92 q), Q. cbn [andb app negb].
        rewrite IH by (auto; cbn in L; lia). reflexivity.
      + apply andb_true_iff in H as [_ H]. pose proof (closes_length _ _ H) as LR. cbn [length] in LR.
        rewrite startswith_long by (cbn; lia).
        assert (E : N.eqb c q && startswith [q; q] r = false).
        { destruct (N.eqb_spec c q) as [->|]; auto. cbn [startswith] in NS. rewrite N.eqb_refl in NS. exact NS. }
        rewrite E, IH by (auto; lia). reflexivity. }
  apply (X (length s)). auto.
Qed.
Lemma closes_line : forall q, q <> 92%N -> q <> 10%N -> forall s, closes [q] s = true -> has 10 s = false -> forall b, one_line q (s ++ b) = Some (s, b).
Proof.
  intros q Q Q10 s. assert (X : forall n s, length s <= n -> closes [q] s = true -> has 10 s = false -> forall b, one_line q (s ++ b) = Some (s, b)).
  { clear s. induction n as [|n IH]; intros s L H NN b; (destruct s as [|c r]; [discriminate H|]); cbn in L; [lia|].
    assert (C10 : N.eqb c 10 = false) by (cbn in NN; apply orb_false_iff in NN as [A _]; rewrite N.eqb_sym; exact A).
    assert (NR : has 10 r = false) by (cbn in NN; apply orb_false_iff in NN as [_ A]; exact A).
    cbn [closes] in H. apply orb_true_iff in H as [H|H].
    - apply str_eqb_eq in H. injection H as -> ->. cbn. rewrite N.eqb_refl. reflexivity.
    - apply andb_true_iff in H as [NS H]. apply negb_true_iff in NS. cbn [app one_line].
      assert (CQ : N.eqb c q = false).
      { cbn [startswith] in NS. destruct (N.eqb_spec c q) as [->|]; auto. rewrite N.eqb_refl in NS. destruct r; discriminate. }
      rewrite CQ, C10. destruct (N.eqb_spec c 92) as [->|N92].
      + destruct r as [|d r]; [discriminate|]. cbn [app].
        assert (D10 : N.eqb d 10 = false) by (cbn in NR; apply orb_false_iff in NR as [A _]; rewrite N.eqb_sym; exact A).
        assert (NR2 : has 10 r = false) by (cbn in NR; apply orb_false_iff in NR as [_ A]; exact A).
        assert (NL : newline (d :: r ++ b) = None).
        { cbn [newline]. rewrite D10. destruct (N.eqb d 13); auto. pose proof (closes_length _ _ H) as LR. cbn in LR.
          destruct r as [|e r]; [cbn in LR; lia|]. cbn [app]. cbn in NR2. apply orb_false_iff in NR2 as [A _].
          assert (E10 : N.eqb e 10 = false) by (rewrite N.eqb_sym; exact A). rewrite E10. auto. }
        rewrite NL, IH by (auto; cbn in L; lia). reflexivity.
      + apply andb_true_iff in H as [_ H]. rewrite IH by (auto; lia). reflexivity. }
  apply (X (length s)). auto.
Qed.

(** ** The rewritten literal *)
Lemma prefix_noq : forall p, In p STRING_PREFIXES -> noq p.
Proof. intros p I. cbn in I. repeat (destruct I as [<-|I]; [repeat constructor|]). contradiction. Qed.
Lemma detect_form : forall s o q, detect_quotes s = Some (o, q) -> In q POSSIBLE_QUOTES /\ noq (match o with Some p => p | None => [] end)
  /\ exists r, s = (match o with Some p => p | None => [] end) ++ q ++ r.
Proof.
  intros s o q H. unfold detect_quotes in H. destruct (find _ POSSIBLE_QUOTES) as [x|] eqn:F.
  - injection H as <- <-. apply find_some in F as [I B]. apply andb_true_iff in B as [B _]. apply startswith_true in B. repeat split; auto. constructor.
  - destruct (find _ (flat_map _ POSSIBLE_QUOTES)) as [[p x]|] eqn:G; [|discriminate]. injection H as <- <-. apply find_some in G as [I B].
    apply andb_true_iff in B as [B _]. apply startswith_true in B as [r B]. cbn [fst snd] in B. apply in_flat_map in I as (x' & I & J). apply in_map_iff in J as (p' & E & J).
    injection E as -> ->. split; [exact I|]. split; [apply prefix_noq; exact J|]. exists r. rewrite B, <- app_assoc. reflexivity.
Qed.
Lemma noq_before : forall p q y, noq p -> quote_c q = true -> before_quote (p ++ q :: y) = (p, q :: y).
Proof.
  intros p q y N Q. apply before_quote_app.
  - intros d I. unfold noq in N. rewrite Forall_forall in N. specialize (N d I). cbn in N. rewrite orb_false_r in N. apply orb_false_iff in N as [A B].
    apply N.eqb_neq in A, B. auto.
  - cbn in Q. rewrite orb_false_r in Q. apply orb_true_iff in Q as [A|A]; apply N.eqb_eq in A; auto.
Qed.
(** A literal that stands where [p ++ [q]] opens a string; in one-character quotes without line ends *)
Lemma literal_end : forall p q y, noq p -> quote_c q = true -> one_literal (p ++ q :: y) = true -> (startswith [q; q] y = false -> has 10 y = false) ->
  (exists y0 c, y = y0 ++ [c] /\ c <> 10%N) /\ forall b, string_end q (y ++ b) = Some (y, b).
Proof.
  intros p q y N Q H NL. destruct (quote_10 q Q) as (Q10 & Q13 & Q92 & _). unfold one_literal in H. apply andb_true_iff in H as [H L].
  unfold python_literal in H. rewrite (noq_before p q y N Q) in H, L. cbn [snd length] in L. apply Nat.ltb_lt in L. apply andb_true_iff in H as [_ H].
  destruct y as [|b [|c r]]; cbn [length] in L; try lia. destruct (N.eqb q b && N.eqb b c) eqn:T.
  - apply andb_true_iff in T as [T1 T2]. apply N.eqb_eq in T1, T2. subst b c. destruct (closes_end _ _ H) as [y0 E]. split.
    + exists (q :: q :: y0 ++ [q; q]), q. split; auto. rewrite E. cbn [app]. rewrite <- app_assoc. reflexivity.
    + intros b. unfold string_end. cbn [app startswith]. rewrite !N.eqb_refl. cbn [andb]. cbn [skipn]. rewrite closes_tail3 by auto.
      destruct (r ++ b); reflexivity.
  - assert (SW : startswith [q; q] (b :: c :: r) = false).
    { cbn [startswith]. destruct (N.eqb_spec q b) as [<-|NE]; cbn [andb] in *; auto. rewrite T. auto. }
    specialize (NL SW). destruct (closes_end _ _ H) as [y0 E]. split; [exists y0, q; auto|]. intros z. unfold string_end.
    rewrite startswith_long, SW by (cbn; lia). rewrite closes_line by auto.
    assert (W : endswith [10%N] (b :: c :: r) = false).
    { destruct (endswith [10%N] (b :: c :: r)) eqn:W; auto. apply endswith_true in W as [u W]. rewrite W, has_app in NL. apply orb_false_iff in NL as [_ NL]. discriminate. }
    rewrite W. reflexivity.
Qed.
Lemma rewritten_replaced : forall s, one_literal (rewritten s) = true -> rewritten s = s \/ exists p q y y', noq p /\ quote_c q = true /\ s = p ++ q :: y
  /\ rewritten s = p ++ q :: y' /\ (exists y0 c, y' = y0 ++ [c] /\ c <> 10%N) /\ forall b, string_end q (y' ++ b) = Some (y', b).
Proof.
  intros s. unfold rewritten. destruct (handle_sql_string s) as [[v Q]|e] eqn:H; auto. intros O. right.
  unfold handle_sql_string in H. destruct (detect_quotes s) as [[o qs]|] eqn:D; [|discriminate]. apply detect_form in D as (I & N & r & E).
  set (p := match o with Some p => p | None => [] end) in *.
  match type of H with context [q_format ?x] => destruct (q_format x) as [[sql|] Q'] end; cbn [rbind] in H; [|discriminate]. injection H as H ->.
  assert (X : exists q u y', quote_c q = true /\ qs = q :: u /\ v = p ++ q :: y' /\ (startswith [q; q] y' = false -> has 10 y' = false)).
  { subst v. unfold requote. fold p. unfold has_nl. destruct (has 10 sql) eqn:HN; cbn in I; unfold has in HN;
      (destruct I as [<-|[<-|[<-|[<-|[]]]]]); try rewrite HN; cbn [length Nat.eqb andb str_eqb]; eexists _, _, _; (split; [|split; [reflexivity|split; [reflexivity|]]]); try reflexivity;
      try (cbn; discriminate); intros _; unfold has; rewrite existsb_app, HN; reflexivity. }
  destruct X as (q & u & y' & QQ & EQ & EV & NL). exists p, q, (u ++ r), y'. rewrite EQ in E. cbn [app] in E.
  rewrite EV in O. destruct (literal_end p q y' N QQ O NL) as [A B]. repeat split; auto.
Qed.

(** ** Ordinary files *)
Lemma ordinary_use : forall word src, ordinary word src = true -> exists ts, tokenize word src = (ts, None) /\ existsb fst ts = false /\ closed src /\ clean src ts
  /\ match ts with t :: _ => t_type (snd t) <> TIndent | [] => True end.
Proof.
  intros word src H. unfold ordinary in H. repeat (apply andb_true_iff in H as [H ?]).
  repeat match goal with X : negb _ = true |- _ => apply negb_true_iff in X end.
  destruct (tokenize word src) as [ts [e|]]; [destruct ts; discriminate|]. destruct ts as [|t ts]; [discriminate|].
  repeat (apply andb_true_iff in H0 as [H0 ?]). repeat match goal with X : negb _ = true |- _ => apply negb_true_iff in X end.
  exists (t :: ts). split; auto. split; auto. split.
  - destruct (rev src) as [|c r] eqn:R.
    + left. rewrite <- (rev_involutive src), R. reflexivity.
    + right. apply N.eqb_eq in H. subst c. exists (rev r). rewrite <- (rev_involutive src), R. reflexivity.
  - split.
    + split; [apply has_false; assumption|]. intros p I. match goal with X : forallb _ _ = true |- _ => rewrite forallb_forall in X; specialize (X p I); apply Nat.eqb_eq in X; rewrite X end.
      apply le_n.
    + intros E. match goal with X : tktype_eqb _ _ = false |- _ => rewrite E in X; discriminate end.
Qed.
Theorem ordinary_described : forall word src, ordinary word src = true ->
  exists ts, generate_tokens word src = (ts, None) /\ tokens_of_file src ts /\ untokenize ts = Ok src.
Proof.
  intros word src H. destruct (ordinary_use word src H) as (ts & T & F & C & CL & NI). exists (map snd ts). unfold generate_tokens. rewrite T. split; auto.
  assert (X := tokenize_file word src ts T F C CL NI). split; auto. apply untokenize_file. exact X.
Qed.
Theorem new_content_tokens : forall word ord fmt val src ts eos st r, ordinary word src = true -> generate_tokens word src = (ts, eos) ->
  compute_tokens ord fmt val ts eos = Ok st -> compute_file_content ord fmt val ts eos = Ok r ->
  (forall t, In t ts -> sql_string t = true -> one_literal (rewritten (t_text t)) = true) ->
  exists ts2, tokenize word (r_content r) = (ts2, None) /\ existsb fst ts2 = false
    /\ map (fun t => (t_type t, t_text t)) (map snd ts2) = map (fun t => (t_type t, t_text t)) (c_tokens st) /\ closed (r_content r).
Proof.
  intros word ord fmt val src ts eos st r H G C R L. destruct (ordinary_use word src H) as (ts0 & T & F & CS & CL & NI).
  unfold generate_tokens in G. rewrite T in G. injection G as <- <-. assert (X := tokenize_file word src ts0 T F CS CL NI).
  unfold compute_file_content in R. rewrite C in R. cbn [rbind] in R. inv_bind R. injection R as <-. cbn [r_content].
  pose proof (compute_tokens_spec ord fmt val (map snd ts0) None) as SP. rewrite C in SP. destruct SP as (-> & _). cbn [c_tokens] in *.
  pose proof (new_tokens_place fmt val (map snd ts0)) as P.
  assert (P1 : Forall2 same_place (map snd ts0) (new_tokens fmt val (map snd ts0))).
  { clear -P. induction P as [|? ? ? ? [A _]]; constructor; auto. }
  destruct (untokenize_respelled src _ _ X P1) as (c & U & RS).
  match goal with E : untokenize _ = Ok ?a |- _ => rewrite U in E; injection E as <- end.
  eapply read_back; eauto.
  revert L P. generalize (map snd ts0), (new_tokens fmt val (map snd ts0)). intros l l' L P. clear -L P. induction P as [|t t' l l' [(K & _ & _) D] P IH]; constructor.
  - split; auto. destruct D as [D|[Q D]]; auto. specialize (L t (or_introl eq_refl) Q).
    destruct (rewritten_replaced _ L) as [E|(p & q & y & y' & A1 & A2 & A3 & A4 & A5)]; [left; congruence|]. right. split.
    + unfold sql_string in Q. destruct (t_type t); congruence.
    + exists p, q, y, y'. rewrite D. auto.
  - apply IH. intros; apply L; auto. right. auto.
Qed.

(** ** Statements of the fragment *)
Lemma simple_fragment : forall t, simple_query t -> fragment_literal t.
Proof.
  intros t H S. destruct (H S) as (p & q & body & n & ts & E & P & L & NQ & NB & TT & W & RD & NF).
  destruct (respell n W ts RD) as (n' & W' & U & SP).
  assert (PS : parse_sql body = Ok n') by (unfold parse_sql; rewrite TT; apply parse_spelling; auto).
  assert (FT : fits q body) by (intros LL c r Eb; intros ->; apply NQ; rewrite Eb; left; reflexivity).
  destruct (fragment_stable p q body n' P L FT PS W') as (f & Q & Q' & F & HS & _).
  exists p, q, body, n', f. repeat split; auto.
  unfold rewritten in NF. rewrite E, HS in NF. exact NF.
Qed.
Lemma simple_literal : forall t, simple_query t -> sql_string t = true -> one_literal (rewritten (t_text t)) = true.
Proof.
  intros t H S. destruct (H S) as (p & q & body & n & ts & E & P & L & NQ & NB & TT & W & RD & NF).
  destruct (rewritten_one_literal p q body n ts P L NQ NB TT W RD) as (f & F & PL).
  assert (FT : fits q body) by (intros LL c r Eb; intros ->; apply NQ; rewrite Eb; left; reflexivity).
  destruct (handle_literal p q body P L FT) as (Q & _ & HH). rewrite F in HH. cbn [rbind] in HH. unfold rewritten. rewrite E, HH. unfold one_literal. rewrite PL.
  destruct (round_trip n W) as (f' & R & _). rewrite (written n body ts W TT RD), R in F. injection F as ->. destruct (sel_head n f (statement_shape n W) R) as (d & r & -> & _).
  destruct (legal_repeat q L) as [_ QC]. assert (LQ : exists c u, q = c :: u /\ (c = 39%N \/ c = 34%N)).
  { cbn in L. destruct L as [<-|[<-|[<-|[<-|[]]]]]; eexists _, _; (split; [reflexivity|]); auto. }
  destruct LQ as (c & u & -> & CC). assert (NP := legal_no_quote p P).
  unfold literal. destruct (has 10 (d :: r)).
  - assert (TQ : exists u', tripled (c :: u) = c :: u') by (destruct u; cbn; eauto). destruct TQ as [u' ->]. cbn [app]. rewrite before_quote_app by auto. cbn [snd length andb].
    apply Nat.ltb_lt. cbn [length nl]. rewrite !app_length. cbn. rewrite ?app_length. cbn. lia.
  - cbn [app]. rewrite before_quote_app by auto. cbn [snd length andb]. apply Nat.ltb_lt. rewrite !app_length. cbn. rewrite ?app_length. cbn. lia.
Qed.
Theorem ordinary_sound : forall word E val s, gen_tokens E = generate_tokens word -> ordinary word s = true ->
  (forall t, In t (fst (generate_tokens word s)) -> simple_query t) -> sound_content E val s.
Proof.
  intros word E val s G O Q ts eos T. rewrite G in T. rewrite T in Q. cbn [fst] in Q. split; [intros t I; apply simple_fragment; auto|].
  intros st r CT CF _. destruct (new_content_tokens word _ _ _ s ts eos st r O T CT CF) as (ts2 & T2 & _ & K & _).
  { intros t I S. apply simple_literal; auto. }
  exists (map snd ts2). rewrite G. unfold generate_tokens. rewrite T2. auto.
Qed.
Theorem format_then_check_files : forall word E v w srcs c code1 w1 code2 w2,
  gen_tokens E = generate_tokens word ->
  (forall f, In (Some f) (files E srcs) -> write_error E f = None /\ ordinary word (c (file_id E f)) = true
     /\ forall t, In t (fst (generate_tokens word (c (file_id E f)))) -> simple_query t) ->
  handle_inputs E (mk_opts true false v w) srcs (start c) = (code1, w1) ->
  handle_inputs E (mk_opts false true v w) srcs (start (contents w1)) = (code2, w2) ->
  (forall r, In r (results E (mk_opts false true v w) (contents w1) (trace w2)) -> r_changed r = 0)
  /\ In (EPrint "No file would be reformatted.") (trace w2)
  /\ contents w2 = contents w1
  /\ (v = false -> code2 = 0).
Proof.
  intros word E v w srcs c code1 w1 code2 w2 G H. apply format_then_check_fragment. intros f I. destruct (H f I) as (A & B & D). split; auto.
  apply (ordinary_sound word); auto.
Qed.

(** ** Exceptions of the tokenizer *)
Lemma step_exn : forall word w l m s ts e, step word w l m s = Done ts (Some e) -> e = TokenError \/ e = IndentationError.
Proof.
  intros word w l m s ts e H. destruct m as [con|]; cbn [step] in H.
  - unfold at_line in H. repeat match type of H with
      | context [match ?x with _ => _ end] => destruct x; try discriminate H
      | context [let '(_, _) := ?x in _] => destruct x; try discriminate H
      end; injection H as <- <-; auto.
  - unfold inline, go_on in H. repeat match type of H with
      | context [match ?x with _ => _ end] => destruct x; try discriminate H
      | context [let '(_, _) := ?x in _] => destruct x; try discriminate H
      end; injection H as <- <-; auto.
Qed.
Lemma run_exn : forall word w fuel l m s e, snd (run word w fuel l m s) = Some e -> e = TokenError \/ e = IndentationError \/ e = OutOfFuel.
Proof.
  intros word w. induction fuel as [|fuel IH]; intros l m s e H; cbn [run] in H; [injection H as <-; auto|].
  destruct (step word w l m s) as [ts o|ts l1 m1 s1] eqn:SE.
  - cbn in H. subst o. apply step_exn in SE. tauto.
  - destruct (run word w fuel l1 m1 s1) as [us o] eqn:R. cbn in H. subst o. apply (IH l1 m1 s1). rewrite R. reflexivity.
Qed.
Theorem tokenize_raises : forall word s ts e, generate_tokens word s = (ts, Some e) -> e = TokenError \/ e = IndentationError.
Proof.
  intros word s ts e H. unfold generate_tokens in H. destruct (tokenize word s) as [us o] eqn:T. injection H as _ ->.
  assert (X : snd (tokenize word s) = Some e) by (rewrite T; reflexivity). unfold tokenize in X. pose proof (run_exn _ _ _ _ _ _ _ X) as [K|[K|K]]; auto.
  exfalso. subst e. eapply run_fuel; [|exact X]. cbn [measure]. lia.
Qed.
Theorem new_content_read : forall word ord fmt val src ts eos st r,
  ordinary word src = true -> generate_tokens word src = (ts, eos) ->
  compute_tokens ord fmt val ts eos = Ok st -> compute_file_content ord fmt val ts eos = Ok r ->
  (forall t, In t ts -> sql_string t = true -> one_literal (rewritten (t_text t)) = true) ->
  exists ts2, generate_tokens word (r_content r) = (ts2, None)
    /\ map (fun t => (t_type t, t_text t)) ts2 = map (fun t => (t_type t, t_text t)) (c_tokens st)
    /\ existsb fst (fst (tokenize word (r_content r))) = false.
Proof.
  intros word ord fmt val src ts eos st r H G C R L. destruct (new_content_tokens word ord fmt val src ts eos st r H G C R L) as (ts2 & T & F & K & _).
  exists (map snd ts2). unfold generate_tokens. rewrite T. auto.
Qed.
Theorem query_breaks_file : exists src ts r, ordinary (fun c => N.eqb c 233) src = true /\ generate_tokens (fun c => N.eqb c 233) src = (ts, None)
  /\ compute_file_content (fun x => x) true false ts None = Ok r
  /\ existsb fst (fst (tokenize (fun c => N.eqb c 233) (r_content r))) = true.
Proof.
  exists "x = '''select 'a' '''
". eexists _, _. split; [vm_compute; reflexivity|]. split; [vm_compute; reflexivity|]. split; [vm_compute; reflexivity|]. vm_compute. reflexivity.
Qed.
