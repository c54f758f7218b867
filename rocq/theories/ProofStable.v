(** Literals around statements of the fragment are formatted stably. *)
From Verif Require Import PyStr PyFloat Lib AstLib Ast Grammar Scan GramTok Render RenderEq GramUp GramAlike LexText GramText Tokeniser Parser Validate Api PyTokens FileHandler
  SpecVal SpecFile ProofFile ProofFile2 ProofFile3 SpecRun SpecRound SpecStable SpecTok ProofTok3 Digits GramStmt GramCase GramRound ProofRun3.
Local Open Scope str_scope.
Local Open Scope list_scope.

Lemma sel_head : forall n s, stmt_shape n = true -> transform n = Ok s -> exists c r, s = c :: r /\ is_upper_c c = true.
Proof.
  intros n s S H. unfold transform in H. destruct n; try discriminate S.
  - rewrite render_NSelect in H. repeat (apply rbind_Ok in H as (? & ? & H)). cbv zeta in H. injection H as <-. eexists _, _. split; reflexivity.
  - rewrite render_NWith in H. repeat (apply rbind_Ok in H as (? & ? & H)). injection H as <-. eexists _, _. split; reflexivity.
Qed.
Lemma framed_format : forall n s, statement n = true -> transform n = Ok s -> format_sql (nl ++ s ++ nl) = Ok s.
Proof.
  intros n s W R. destruct (printed n W) as (s' & R' & X & NE & E). rewrite R in R'. injection R' as <-.
  assert (TN : T nl []) by fixed.
  assert (Y : T (nl ++ s ++ nl) (map prints (entries n))).
  { assert (Y := T_app _ _ _ _ TN (T_app _ _ _ _ X TN (joint_r s nl eq_refl)) (joint_l nl _ eq_refl)). rewrite app_nil_r in Y. exact Y. }
  assert (TT := T_tokens _ _ Y ltac:(discriminate)).
  assert (P : parse_sql (nl ++ s ++ nl) = Ok (up n)).
  { unfold parse_sql. rewrite TT, E. apply parse_spelling; [apply statement_up; auto|]. apply kwl_canon, kwl_toks. }
  unfold format_sql. rewrite P. cbn [rbind]. unfold transform in *. rewrite transform_up; auto.
Qed.
Lemma quote_lower : forall q c, legal_quote q -> is_upper_c c = true -> q <> [c].
Proof. intros q c L U ->. cbn in L. repeat (destruct L as [L|L]; [try discriminate L; injection L as <-; discriminate U|]). contradiction. Qed.
Theorem fragment_stable : forall p q body n, legal_prefix p -> legal_quote q -> fits q body -> parse_sql body = Ok n -> statement n = true ->
  exists f Q Q', format_sql body = Ok f /\ handle_sql_string (p ++ q ++ body ++ q) = Ok (literal p q f, Q)
    /\ handle_sql_string (literal p q f) = Ok (literal p q f, Q').
Proof.
  intros p q body n P L F B W. destruct (round_trip n W) as (f & R & _ & _ & FF).
  destruct (handle_literal p q body P L F) as (Q & _ & H). assert (FB : format_sql body = Ok f) by (unfold format_sql; rewrite B; exact R).
  rewrite FB in H. cbn [rbind] in H. destruct (sel_head n f (statement_shape n W) R) as (c & r & Ef & U).
  assert (X : exists Q', handle_sql_string (literal p q f) = Ok (literal p q f, Q')).
  { unfold literal. destruct (has 10 f) eqn:HN.
    - assert (LT : legal_quote (tripled q)) by (cbn in L; destruct L as [<-|[<-|[<-|[<-|[]]]]]; cbn; auto).
      assert (FT : fits (tripled q) (nl ++ f ++ nl)) by (intros LL; cbn in L; destruct L as [<-|[<-|[<-|[<-|[]]]]]; discriminate LL).
      destruct (handle_literal p (tripled q) (nl ++ f ++ nl) P LT FT) as (Q' & _ & H'). rewrite (framed_format n f W R) in H'. cbn [rbind] in H'.
      exists Q'. unfold literal in H'. rewrite HN in H'. rewrite <- !app_assoc in H'. rewrite H'. cbn in L; destruct L as [<-|[<-|[<-|[<-|[]]]]]; reflexivity.
    - assert (FT : fits q f) by (intros _ c' r' E; rewrite Ef in E; injection E as <- _; apply quote_lower; auto).
      destruct (handle_literal p q f P L FT) as (Q' & _ & H'). rewrite FF in H'. cbn [rbind] in H'. exists Q'. unfold literal in H'. rewrite HN in H'. exact H'. }
  destruct X as (Q' & X). exists f, Q, Q'. auto.
Qed.
Theorem literal_stable : forall t, fragment_literal t -> stable_literal t.
Proof.
  intros t H S v q E. destruct (H S) as (p & qu & body & n & f & Et & P & L & F & B & W & FF & C). destruct (fragment_stable p qu body n P L F B W) as (f' & Q & Q' & F' & H1 & H2).
  rewrite FF in F'. injection F' as <-. rewrite Et, H1 in E. injection E as <- _. split; [eauto|]. rewrite Et. auto.
Qed.
Theorem format_then_check_fragment : forall E v w srcs c code1 w1 code2 w2,
  (forall f, In (Some f) (files E srcs) -> write_error E f = None /\ sound_content E (v || w) (c (file_id E f))) ->
  handle_inputs E (mk_opts true false v w) srcs (start c) = (code1, w1) ->
  handle_inputs E (mk_opts false true v w) srcs (start (contents w1)) = (code2, w2) ->
  (forall r, In r (results E (mk_opts false true v w) (contents w1) (trace w2)) -> r_changed r = 0)
  /\ In (EPrint "No file would be reformatted.") (trace w2)
  /\ contents w2 = contents w1
  /\ (v = false -> code2 = 0).
Proof.
  intros E v w srcs c code1 w1 code2 w2 H. apply format_then_check. intros f I. destruct (H f I) as [A B]. split; auto.
  intros ts eos st r G CT CF P. destruct (B ts eos G) as [B1 B2]. split; [intros t It; apply literal_stable; auto|]. apply (B2 st r); auto.
Qed.

(** ** The rewritten literal is one literal *)
Lemma db_chars : forall s t c, drops_blanks s t -> ~ blank c -> In c s <-> In c t.
Proof.
  intros s t c H B. induction H as [|d s t H IH|d s t D H IH]; [reflexivity|cbn; rewrite IH; reflexivity|]. cbn. rewrite IH. split; auto. intros [->|X]; [contradiction|auto].
Qed.
Lemma no_backslash_tame : forall s, ~ In 92%N s -> tame s.
Proof. intros s H a b ->. destruct H. apply in_or_app. right. left. auto. Qed.
Lemma tokens_chars : forall s ts c, tame s -> to_tokens s = (ts, None) -> ~ blank c -> In c s <-> exists t, In t ts /\ In c t.
Proof.
  intros s ts c TM TT B. destruct (tokens_lossless s TM) as (ts' & TT' & D). rewrite TT in TT'. injection TT' as <-. rewrite (db_chars _ _ c D B), in_concat. reflexivity.
Qed.
Definition caseless (c : N) : Prop := is_upper_c c = false /\ is_lower_c c = false.
Lemma caseless_upper : forall c s, caseless c -> In c (upper s) <-> In c s.
Proof.
  intros c s [U L]. unfold upper. rewrite in_map_iff. split.
  - intros (d & E & I). unfold upper_c in E. destruct (is_lower_c d) eqn:X; [|subst; auto]. exfalso. subst c. unfold is_lower_c, is_upper_c in *. apply andb_true_iff in X as [A B]. apply N.leb_le in A, B.
    apply andb_false_iff in U. rewrite !N.leb_gt in U. lia.
  - intros I. exists c. split; auto. unfold upper_c. rewrite L. auto.
Qed.
Lemma caseless_lower : forall c s, caseless c -> In c (lower s) <-> In c s.
Proof.
  intros c s [U L]. unfold lower. rewrite in_map_iff. split.
  - intros (d & E & I). unfold lower_c in E. destruct (is_upper_c d) eqn:X; [|subst; auto]. exfalso. subst c. unfold is_lower_c, is_upper_c in *. apply andb_true_iff in X as [A B]. apply N.leb_le in A, B.
    apply andb_false_iff in L. rewrite !N.leb_gt in L. lia.
  - intros I. exists c. split; auto. unfold lower_c. rewrite U. auto.
Qed.
Lemma no_new_chars : forall n body ts f c, statement n = true -> tame body -> to_tokens body = (ts, None) -> Forall2 reads (entries n) ts -> format_sql body = Ok f ->
  ~ blank c -> caseless c -> is_digit_c c = false -> In c f -> In c body.
Proof.
  intros n body ts f c W TM TT H F B CL D I. rewrite (written n body ts W TT H) in F. destruct (printed n W) as (s & R & X & NE & _).
  rewrite F in R. injection R as <-. assert (TF := T_tokens _ _ X NE). destruct X as (rs & L & _). apply lexes_tame in L.
  apply (tokens_chars f _ c L TF B) in I as (t & It & Ic). apply in_map_iff in It as (e & <- & Ie).
  apply (tokens_chars body ts c TM TT B).
  assert (Y : exists t, In t ts /\ reads e t).
  { clear - H Ie. induction H as [|x y l l' R _ IH]; [destruct Ie|]. destruct Ie as [<-|Ie]; [exists y; split; auto; left; auto|]. destruct (IH Ie) as (t & A & B). exists t. split; auto. right. auto. }
  destruct Y as (t & It & Rt). exists t. split; auto. destruct e as [k|v|v|z]; cbn [reads prints] in *.
  - subst k. rewrite caseless_upper, caseless_lower in Ic by auto. auto.
  - subst. auto.
  - subst. destruct (mem v COLUMN_KEYWORDS); auto. rewrite caseless_upper in Ic; auto.
  - destruct Rt as [Dt Vt]. exfalso. assert (V := str_of_Z_digits z ltac:(rewrite <- Vt; apply value_nonneg; auto)). 
    unfold isdigit in V. destruct (str_of_Z z); [discriminate V|]. rewrite forallb_forall in V. rewrite (V c Ic) in D. discriminate.
Qed.
Lemma legal_repeat : forall q, legal_quote q -> (q = [quote_of q] \/ q = [quote_of q; quote_of q; quote_of q]) /\ (quote_of q = 39%N \/ quote_of q = 34%N).
Proof. intros q L. cbn in L. destruct L as [<-|[<-|[<-|[<-|[]]]]]; cbn; auto. Qed.
Lemma closes_body : forall q c x, (q = [c] \/ q = [c; c; c]) -> c <> 92%N -> ~ In c x -> ~ In 92%N x -> (length q = 1 -> ~ In 10%N x) -> closes q (x ++ q) = true.
Proof.
  intros q c x Q C. induction x as [|d x IH]; intros NC NB NN.
  - cbn [app]. assert (X : closes q q = str_eqb q q || closes q q) by (destruct Q as [-> | ->]; cbn [closes]; rewrite str_eqb_refl; reflexivity). rewrite X, str_eqb_refl. auto.
  - cbn [app closes]. assert (D : d <> c) by (intros ->; apply NC; left; auto). assert (D92 : d <> 92%N) by (intros ->; apply NB; left; auto).
    assert (S : startswith q (d :: x ++ q) = false).
    { destruct Q as [-> | ->]; cbn [startswith]; (destruct (N.eqb_spec c d); [congruence|reflexivity]). }
    assert (R : closes q (x ++ q) = true) by (apply IH; [intros I; apply NC; right; auto|intros I; apply NB; right; auto|intros LL I; apply (NN LL); right; auto]).
    rewrite S. cbn [negb andb]. apply orb_true_iff. right.
    assert (NL : negb ((length q =? 1) && N.eqb d 10) = true).
    { destruct (Nat.eqb_spec (length q) 1) as [LL|]; auto. destruct (N.eqb_spec d 10); auto. exfalso. apply (NN LL). left. auto. }
    apply N.eqb_neq in D92. rewrite D92, NL, R. auto.
Qed.
Lemma before_quote_app : forall p c r, (forall d, In d p -> d <> 39%N /\ d <> 34%N) -> c = 39%N \/ c = 34%N -> before_quote (p ++ c :: r) = (p, c :: r).
Proof.
  intros p c r H C. induction p as [|d p IH]; cbn [app before_quote].
  - destruct C as [-> | ->]; reflexivity.
  - destruct (H d (or_introl eq_refl)) as [A B]. apply N.eqb_neq in A, B. rewrite A, B. cbn [orb]. rewrite IH; auto. intros; apply H; right; auto.
Qed.
Lemma legal_no_quote : forall p, legal_prefix p -> forall d, In d p -> d <> 39%N /\ d <> 34%N.
Proof.
  intros p L d I. assert (X : forall c, caseless c -> In c p -> In c (lower p)) by (intros; apply caseless_lower; auto). unfold legal_prefix in L.
  assert (C39 : caseless 39%N) by (split; reflexivity). assert (C34 : caseless 34%N) by (split; reflexivity).
  split; intros ->; [assert (Y := X _ C39 I)|assert (Y := X _ C34 I)]; cbn in L; repeat (destruct L as [L|L]; [rewrite <- L in Y; cbn in Y; intuition discriminate|]); contradiction.
Qed.
Theorem rewritten_one_literal : forall p q body n ts, legal_prefix p -> legal_quote q -> ~ In (quote_of q) body -> ~ In 92%N body ->
  to_tokens body = (ts, None) -> statement n = true -> Forall2 reads (entries n) ts ->
  exists f, format_sql body = Ok f /\ python_literal (literal p q f) = true.
Proof.
  intros p q body n ts P L NQ NB TT W H. destruct (round_trip n W) as (f & R & _). assert (F : format_sql body = Ok f) by (rewrite (written n body ts W TT H); exact R).
  exists f. split; auto. destruct (legal_repeat q L) as [Q C]. remember (quote_of q) as c eqn:Ec. clear Ec. destruct (sel_head n f (statement_shape n W) R) as (d & r & Ef & U).
  assert (TM := no_backslash_tame body NB).
  assert (K : forall x, In x [39; 34; 92]%N -> In x f -> In x body).
  { intros x X. apply (no_new_chars n body ts f x W TM TT H F); cbn in X; destruct X as [<-|[<-|[<-|[]]]]; try reflexivity; try (split; reflexivity); unfold blank; cbn; intuition discriminate. }
  assert (NC : ~ In c f) by (intros I; apply NQ; apply K; auto; destruct C as [-> | ->]; cbn; auto).
  assert (N92 : ~ In 92%N f) by (intros I; apply NB; apply K; auto; cbn; auto).
  assert (DC : d <> c) by (intros ->; apply NC; rewrite Ef; left; auto).
  assert (C92 : c <> 92%N) by (destruct C as [-> | ->]; discriminate).
  assert (PM : mem (lower p) [""; "r"; "u"; "f"; "b"; "fr"; "rf"; "br"; "rb"] = true) by (apply mem_In; exact P).
  assert (TRI : forall x, ~ In c x -> ~ In 92%N x -> python_literal (p ++ [c; c; c] ++ x ++ [c; c; c]) = true).
  { intros x X1 X2. unfold python_literal. change ([c; c; c] ++ x ++ [c; c; c]) with (c :: [c; c] ++ x ++ [c; c; c]). rewrite before_quote_app by (auto; apply legal_no_quote; auto).
    rewrite PM. cbn [andb app]. rewrite N.eqb_refl. cbn [andb]. apply (closes_body _ c); auto. discriminate. }
  unfold literal. destruct (has 10 f) eqn:HN.
  - assert (TQ : tripled q = [c; c; c]) by (destruct Q as [-> | ->]; reflexivity). rewrite TQ.
    replace (p ++ [c; c; c] ++ nl ++ f ++ nl ++ [c; c; c]) with (p ++ [c; c; c] ++ (nl ++ f ++ nl) ++ [c; c; c]) by (rewrite <- !app_assoc; reflexivity).
    apply TRI; rewrite !in_app_iff; cbn; intuition (try congruence); destruct C as [C|C]; rewrite C in *; discriminate.
  - destruct Q as [-> | ->]; [|apply TRI; auto].
    unfold python_literal. change ([c] ++ f ++ [c]) with (c :: f ++ [c]). rewrite before_quote_app by (auto; apply legal_no_quote; auto). rewrite PM. cbn [andb].
    assert (CB : closes [c] (f ++ [c]) = true).
    { apply (closes_body _ c); auto. intros _ I. apply has_In in I. congruence. }
    rewrite Ef in *. cbn [app] in *. destruct (r ++ [c]) as [|e r'] eqn:Er; [destruct r; discriminate Er|]. apply N.eqb_neq in DC. rewrite N.eqb_sym in DC. rewrite DC. exact CB.
Qed.

Theorem rewritten_handled : forall p q body n ts, legal_prefix p -> legal_quote q -> ~ In (quote_of q) body -> ~ In 92%N body ->
  to_tokens body = (ts, None) -> statement n = true -> Forall2 reads (entries n) ts ->
  exists s Q, handle_sql_string (p ++ q ++ body ++ q) = Ok (s, Q) /\ python_literal s = true.
Proof.
  intros p q body n ts P L NQ NB TT W H. destruct (rewritten_one_literal p q body n ts P L NQ NB TT W H) as (f & F & PL).
  assert (FT : fits q body).
  { intros LL c r E. intros ->. apply NQ. rewrite E. left. reflexivity. }
  destruct (handle_literal p q body P L FT) as (Q & _ & HH). rewrite F in HH. cbn [rbind] in HH. eauto.
Qed.

(** ** Replacement fields and parameters *)
Definition unaffected (P : str -> bool) : Prop :=
  (forall s, P (lower s) = P s) /\ (forall s, P (upper s) = P s) /\ forallb (fun k => negb (P k)) COLUMN_KEYWORDS = true
  /\ forall s, isdigit s = true -> P s = false.
Lemma filter_kept : forall P n q ts, unaffected P -> statement n = true -> to_tokens q = (ts, None) -> Forall2 reads (entries n) ts ->
  (forall k, In (Word k) (entries n) -> P k = false) ->
  exists f ts', format_sql q = Ok f /\ to_tokens f = (ts', None) /\ filter P ts' = filter P ts.
Proof.
  intros P n q ts (PL & PU & PC & PD) W TT H BF. destruct (tokens_kept n q ts W TT H) as (f & F & TF). exists f, (map prints (entries n)). split; auto. split; auto. clear TT TF F W.
  induction H as [|e t l l' R _ IH]; auto. cbn [map filter]. rewrite IH by (intros; apply BF; right; auto). clear IH.
  destruct e as [k|v|v|z]; cbn [reads prints] in *.
  - assert (B := BF k (or_introl eq_refl)). subst k. rewrite PU. rewrite B, <- (PL t), B. auto.
  - subst. auto.
  - subst. destruct (mem v COLUMN_KEYWORDS) eqn:M; auto. apply mem_In in M. rewrite forallb_forall in PC. apply PC, negb_true_iff in M. rewrite PU, M. auto.
  - destruct R as [D V]. rewrite !PD; auto. apply str_of_Z_digits. subst. apply value_nonneg; auto.
Qed.
Lemma brace_unaffected : unaffected has_brace.
Proof.
  split; [|split; [|split; [reflexivity|]]].
  - intros s. unfold has_brace. f_equal; apply eq_true_iff_eq; rewrite !has_In, caseless_lower; try split; reflexivity || auto.
  - intros s. unfold has_brace. f_equal; apply eq_true_iff_eq; rewrite !has_In, caseless_upper; try split; reflexivity || auto.
  - intros s S. unfold isdigit in S. destruct s as [|c s]; [discriminate S|]. rewrite forallb_forall in S. unfold has_brace. apply orb_false_iff.
    split; (destruct (has _ _) eqn:E; auto); apply has_In, S in E; discriminate.
Qed.
Theorem fields_kept : forall n q ts, statement n = true -> to_tokens q = (ts, None) -> Forall2 reads (entries n) ts ->
  (forall k, In (Word k) (entries n) -> has_brace k = false) ->
  exists f ts', format_sql q = Ok f /\ to_tokens f = (ts', None) /\ filter has_brace ts' = filter has_brace ts.
Proof. intros n q ts. apply filter_kept, brace_unaffected. Qed.

Lemma sign_case : forall c, is_upper_c c = false -> is_lower_c c = false -> forall d, (N.eqb (lower_c d) c = N.eqb d c) /\ (N.eqb (upper_c d) c = N.eqb d c).
Proof.
  intros c U L d. unfold lower_c, upper_c, is_upper_c, is_lower_c in *. apply andb_false_iff in U, L. rewrite !N.leb_gt in U, L.
  split.
  - destruct ((65 <=? d)%N && (d <=? 90)%N) eqn:X; auto. apply andb_true_iff in X as [A B]. apply N.leb_le in A, B.
    destruct (N.eqb_spec (d + 32) c), (N.eqb_spec d c); auto; lia.
  - destruct ((97 <=? d)%N && (d <=? 122)%N) eqn:X; auto. apply andb_true_iff in X as [A B]. apply N.leb_le in A, B.
    destruct (N.eqb_spec (d - 32) c), (N.eqb_spec d c); auto; lia.
Qed.
Lemma parameter_unaffected : unaffected parameter.
Proof.
  assert (X : forall d, existsb (N.eqb (lower_c d)) PARAMETER_SIGNS = existsb (N.eqb d) PARAMETER_SIGNS /\ existsb (N.eqb (upper_c d)) PARAMETER_SIGNS = existsb (N.eqb d) PARAMETER_SIGNS).
  { intros d. unfold PARAMETER_SIGNS. cbn [existsb]. split; repeat (apply f_equal2; [apply sign_case; reflexivity|]); reflexivity. }
  split; [|split; [|split; [reflexivity|]]].
  - intros [|c s]; [reflexivity|]. apply X.
  - intros [|c s]; [reflexivity|]. apply X.
  - intros s S. unfold isdigit in S. destruct s as [|c s]; [discriminate S|]. cbn [forallb] in S. apply andb_true_iff in S as [S _].
    unfold is_digit_c in S. apply andb_true_iff in S as [A B]. apply N.leb_le in A, B. unfold parameter, PARAMETER_SIGNS. cbn [existsb].
    repeat (apply orb_false_iff; split; [apply N.eqb_neq; lia|]). reflexivity.
Qed.
Theorem parameters_kept : forall n q ts, statement n = true -> to_tokens q = (ts, None) -> Forall2 reads (entries n) ts ->
  (forall k, In (Word k) (entries n) -> parameter k = false) ->
  exists f ts', format_sql q = Ok f /\ to_tokens f = (ts', None) /\ filter parameter ts' = filter parameter ts.
Proof. intros n q ts. apply filter_kept, parameter_unaffected. Qed.

(** ** The value of the rewritten literal *)
Lemma value_triple : forall p c x, legal_prefix p -> c = 39%N \/ c = 34%N -> python_literal (p ++ [c; c; c] ++ x ++ [c; c; c]) = true ->
  ~ In 92%N x -> python_value (p ++ [c; c; c] ++ x ++ [c; c; c]) = Some x.
Proof.
  intros p c x P C L NB. unfold python_value. rewrite L. cbn [andb].
  assert (NP : ~ In 92%N p).
  { intros I. assert (C92 : caseless 92%N) by (split; reflexivity). apply (proj2 (caseless_lower 92 p C92)) in I. unfold legal_prefix in P. cbn in P.
    repeat (destruct P as [P|P]; [rewrite <- P in I; cbn in I; intuition discriminate|]). contradiction. }
  assert (H : has 92 (p ++ [c; c; c] ++ x ++ [c; c; c]) = false).
  { destruct (has _ _) eqn:E; auto. apply has_In in E. rewrite !in_app_iff in E. cbn in E. destruct C as [-> | ->]; intuition discriminate. }
  rewrite H. cbn [negb].
  change ([c; c; c] ++ x ++ [c; c; c]) with (c :: [c; c] ++ x ++ [c; c; c]). rewrite before_quote_app by (auto; apply legal_no_quote; auto). cbn [app snd]. rewrite N.eqb_refl. cbn [andb].
  f_equal. rewrite app_length. cbn [length]. replace (length x + 3 - 3) with (length x + 0) by lia. rewrite firstn_app_2. cbn [firstn]. apply app_nil_r.
Qed.
Lemma value_single : forall p c d x, legal_prefix p -> c = 39%N \/ c = 34%N -> python_literal (p ++ [c] ++ (d :: x) ++ [c]) = true -> d <> c ->
  ~ In 92%N (d :: x) -> python_value (p ++ [c] ++ (d :: x) ++ [c]) = Some (d :: x).
Proof.
  intros p c d x P C L DC NB. unfold python_value. rewrite L. cbn [andb].
  assert (NP : ~ In 92%N p).
  { intros I. assert (C92 : caseless 92%N) by (split; reflexivity). apply (proj2 (caseless_lower 92 p C92)) in I. unfold legal_prefix in P. cbn in P.
    repeat (destruct P as [P|P]; [rewrite <- P in I; cbn in I; intuition discriminate|]). contradiction. }
  assert (H : has 92 (p ++ [c] ++ (d :: x) ++ [c]) = false).
  { destruct (has _ _) eqn:E; auto. apply has_In in E. rewrite !in_app_iff in E. cbn in E, NB. destruct C as [-> | ->]; intuition discriminate. }
  rewrite H. cbn [negb].
  change ([c] ++ (d :: x) ++ [c]) with (c :: (d :: x) ++ [c]). rewrite before_quote_app by (auto; apply legal_no_quote; auto).
  assert (E : removelast ((d :: x) ++ [c]) = d :: x) by (rewrite removelast_app by discriminate; cbn [removelast]; apply app_nil_r).
  cbn [app snd]. destruct (x ++ [c]) as [|e r] eqn:Er; [destruct x; discriminate Er|]. apply N.eqb_neq in DC. rewrite N.eqb_sym in DC. rewrite DC. cbn [andb].
  cbn [app] in E. rewrite Er in E. rewrite E. auto.
Qed.
Theorem value_kept : forall p q body n ts, legal_prefix p -> legal_quote q -> ~ In (quote_of q) body -> ~ In 92%N body ->
  (length q = 1 -> ~ In 10%N body) ->
  to_tokens body = (ts, None) -> statement n = true -> Forall2 reads (entries n) ts ->
  exists s Q v ts', python_value (p ++ q ++ body ++ q) = Some body
    /\ handle_sql_string (p ++ q ++ body ++ q) = Ok (s, Q) /\ python_value s = Some v
    /\ to_tokens v = (ts', None) /\ Forall2 alike ts ts' /\ format_sql v = format_sql body.
Proof.
  intros p q body n ts P L NQ NB NN TT W H. destruct (rewritten_one_literal p q body n ts P L NQ NB TT W H) as (f & F & PL).
  assert (FT : fits q body) by (intros LL c r E ->; apply NQ; rewrite E; left; reflexivity).
  destruct (handle_literal p q body P L FT) as (Q & _ & HH). rewrite F in HH. cbn [rbind] in HH.
  destruct (tokens_kept_alike n body ts W TT H) as (f' & ts' & F' & TF & AL). rewrite F in F'. injection F' as <-.
  assert (R : transform n = Ok f) by (rewrite <- (written n body ts W TT H); exact F).
  destruct (sel_head n f (statement_shape n W) R) as (d & r & Ef & U). destruct (legal_repeat q L) as [QQ C]. remember (quote_of q) as c eqn:Ec. clear Ec.
  assert (C92 : c <> 92%N) by (destruct C as [-> | ->]; discriminate).
  assert (PM : mem (lower p) [""; "r"; "u"; "f"; "b"; "fr"; "rf"; "br"; "rb"] = true) by (apply mem_In; exact P).
  assert (N92 : ~ In 92%N f).
  { intros I. apply NB. apply (no_new_chars n body ts f 92 W (no_backslash_tame body NB) TT H F); auto; try reflexivity; try (split; reflexivity). unfold blank. cbn. intuition discriminate. }
  assert (NC : ~ In c f).
  { intros I. apply NQ. apply (no_new_chars n body ts f c W (no_backslash_tame body NB) TT H F); auto; destruct C as [-> | ->]; try reflexivity; try (split; reflexivity); unfold blank; cbn; intuition discriminate. }
  (* the literal before *)
  assert (V0 : python_value (p ++ q ++ body ++ q) = Some body).
  { destruct body as [|b body]; [vm_compute in F; discriminate F|].
    assert (BC : b <> c) by (intros ->; apply NQ; left; auto).
    destruct QQ as [-> | ->].
    - apply value_single; auto. unfold python_literal. change ([c] ++ (b :: body) ++ [c]) with (c :: (b :: body) ++ [c]). rewrite before_quote_app by (auto; apply legal_no_quote; auto). rewrite PM. cbn [andb].
      assert (CB : closes [c] ((b :: body) ++ [c]) = true) by (apply (closes_body _ c); auto).
      cbn [app] in *. destruct (body ++ [c]) as [|e r'] eqn:Er; [destruct body; discriminate Er|]. apply N.eqb_neq in BC. rewrite N.eqb_sym in BC. rewrite BC. exact CB.
    - apply value_triple; auto. unfold python_literal. change ([c; c; c] ++ (b :: body) ++ [c; c; c]) with (c :: [c; c] ++ (b :: body) ++ [c; c; c]). rewrite before_quote_app by (auto; apply legal_no_quote; auto).
      rewrite PM. cbn [andb app]. rewrite N.eqb_refl. cbn [andb]. apply (closes_body _ c (b :: body)); auto. }
  exists (literal p q f), Q. unfold literal in PL |- *. rewrite HH. unfold literal. destruct (has 10 f) eqn:HN.
  - exists (nl ++ f ++ nl), ts'. split; auto. split; auto.
    assert (TQ : tripled q = [c; c; c]) by (destruct QQ as [-> | ->]; reflexivity). rewrite TQ in *.
    replace (p ++ [c; c; c] ++ nl ++ f ++ nl ++ [c; c; c]) with (p ++ [c; c; c] ++ (nl ++ f ++ nl) ++ [c; c; c]) in * by (rewrite <- !app_assoc; reflexivity).
    split. { apply value_triple; auto. rewrite !in_app_iff. cbn. intuition discriminate. }
    split; [|split; auto].
    + destruct (printed n W) as (s' & R' & X & NE & E). rewrite R in R'. injection R' as <-.
      assert (TN : T nl []) by fixed.
      assert (Y : T (nl ++ f ++ nl) (map prints (entries n))).
      { assert (Y := T_app _ _ _ _ TN (T_app _ _ _ _ X TN (joint_r f nl eq_refl)) (joint_l nl _ eq_refl)). rewrite app_nil_r in Y. exact Y. }
      rewrite (T_tokens _ _ Y ltac:(discriminate)). rewrite (T_tokens _ _ X NE) in TF. exact TF.
    + rewrite (framed_format n f W R), F. auto.
  - exists f, ts'. split; auto. split; auto. rewrite Ef in *. split.
    { destruct QQ as [-> | ->]; [apply value_single; auto|apply value_triple; auto]. intros ->. apply NC. left. auto. }
    split; auto. split; auto. destruct (round_trip n W) as (f2 & R2 & _ & _ & FF). rewrite R in R2. injection R2 as <-. rewrite FF, F. auto.
Qed.
