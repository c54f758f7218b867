(** C61: the literals of a file, before and after formatting. *)
From Verif Require Import PyStr PyFloat Lib AstLib Ast Grammar Scan GramTok Render RenderEq GramUp GramAlike LexText GramText Tokeniser Parser Validate Api PyTokens FileHandler
  SpecVal SpecFile ProofFile ProofFile2 ProofFile3 SpecRun SpecRound SpecStable SpecTok ProofTok3 Digits GramStmt GramCase GramRound ProofRun3 ProofStable
  PyTokenize SpecTokenize ProofTokenize6 SpecSame ProofSame SpecVerdict ProofAgain.
Local Open Scope str_scope.
Local Open Scope list_scope.

Lemma framed_parse : forall n s, statement n = true -> transform n = Ok s -> parse_sql (nl ++ s ++ nl) = Ok (up n).
Proof.
  intros n s W R. destruct (printed n W) as (s' & R' & X & NE & E). rewrite R in R'. injection R' as <-.
  assert (TN : T nl []) by fixed.
  assert (Y : T (nl ++ s ++ nl) (map prints (entries n))).
  { assert (Y := T_app _ _ _ _ TN (T_app _ _ _ _ X TN (joint_r s nl eq_refl)) (joint_l nl _ eq_refl)). rewrite app_nil_r in Y. exact Y. }
  assert (TT := T_tokens _ _ Y ltac:(discriminate)).
  unfold parse_sql. rewrite TT, E. apply parse_spelling; [apply statement_up; auto|]. apply kwl_canon, kwl_toks.
Qed.
Lemma framed_errors : forall ord n body s, statement n = true -> steady n -> parse_sql body = Ok n -> transform n = Ok s ->
  errors_of ord (nl ++ s ++ nl) = errors_of ord body /\ errors_of ord s = errors_of ord body.
Proof.
  intros ord n body s W S P R. unfold errors_of. rewrite (framed_parse n s W R), P. destruct (round_trip n W) as (t & R' & _ & Pt & _). rewrite R in R'. injection R' as <-.
  rewrite Pt. cbn [rbind]. split; apply top_up; auto.
Qed.

(** ** The new literal counts as SQL too *)
Definition stripped (c : N) : Prop := In (lower_c c) (" '""`ufbr" ++ nl ++ [9%N]).
Lemma first_bad : forall (P : N -> Prop) a x s b y t, a ++ x :: s = b ++ y :: t -> (forall c, In c a -> P c) -> (forall c, In c b -> P c) -> ~ P x -> ~ P y -> x = y.
Proof.
  intros P. induction a as [|c a IH]; intros x s [|d b] y t E A B X Y; cbn [app] in E.
  - injection E as E _. exact E.
  - injection E as -> _. exfalso. apply X. apply B. left. auto.
  - injection E as -> _. exfalso. apply Y. apply A. left. auto.
  - injection E as _ E. apply (IH x s b y t E); auto; intros; [apply A|apply B]; right; auto.
Qed.
Lemma prefix_stripped : forall p c, legal_prefix p -> In c p -> In (lower_c c) (" '""`ufbr" ++ nl).
Proof.
  intros p c H I. unfold legal_prefix in H. assert (J : In (lower_c c) (lower p)) by (unfold lower; apply in_map; exact I).
  revert H J. generalize (lower p) (lower_c c). intros l d H J. cbn in H. repeat (destruct H as [<-|H]; [cbn in J |- *; tauto|]). contradiction.
Qed.
Lemma quote_stripped : forall q c, legal_quote q -> In c q -> In (lower_c c) (" '""`ufbr" ++ nl).
Proof.
  intros q c H I. cbn in H. destruct H as [<-|[<-|[<-|[<-|[]]]]]; cbn in I; repeat (destruct I as [<-|I]; [cbn; tauto|]); contradiction.
Qed.
Lemma stripped_more : forall c, In (lower_c c) (" '""`ufbr" ++ nl) -> stripped c.
Proof. intros c H. unfold stripped. rewrite app_assoc. apply in_or_app. left. exact H. Qed.
Lemma blank_stripped : forall c, blank c -> stripped c.
Proof. intros c [->|[->| ->]]; vm_compute; tauto. Qed.
Lemma first_char : forall s c t, drops_blanks s (c :: t) -> exists b r, s = b ++ c :: r /\ forall d, In d b -> blank d.
Proof.
  intros s c t H. remember (c :: t) as u eqn:E. induction H as [|d s u H IH|d s u B H IH]; [discriminate| |].
  - injection E as -> ->. exists [], s. split; auto. contradiction.
  - destruct (IH E) as (b & r & -> & Z). exists (d :: b), r. split; auto. intros e [<-|I]; auto.
Qed.
Lemma with_not_select : forall p q body ts qs s, legal_prefix p -> legal_quote q -> ~ In 92%N body -> to_tokens body = (ts, None) ->
  Forall2 SpecRound.reads (entries (NWith qs s)) ts -> is_select_string (p ++ q ++ body ++ q) = false.
Proof.
  intros p q body ts qs s P L NB TT H. destruct (is_select_string (p ++ q ++ body ++ q)) eqn:S; auto. exfalso.
  apply select_string in S as (pre & w & rest & E & PR & LW & _). cbn [entries] in H. inversion H as [|? tw ? ts' RD _]; subst. cbn [SpecRound.reads] in RD.
  destruct (tokens_lossless body (no_backslash_tame _ NB)) as (ts2 & TT' & D). rewrite TT in TT'. injection TT' as <-.
  destruct tw as [|c tw]; [discriminate RD|]. cbn [lower map] in RD. injection RD as RC _. cbn [concat app] in D.
  apply first_char in D as (b & r & -> & BL). destruct w as [|d w]; [discriminate LW|]. cbn [lower map] in LW. injection LW as LC _.
  assert (X : c = d); [|subst d; rewrite LC in RC; discriminate RC].
  apply (first_bad stripped (p ++ q ++ b) c (r ++ q) pre d (w ++ rest)).
  - replace ((p ++ q ++ b) ++ c :: r ++ q) with (p ++ q ++ (b ++ c :: r) ++ q) by (rewrite <- !app_assoc; reflexivity). exact E.
  - intros e I. rewrite !in_app_iff in I. destruct I as [I|[I|I]]; [apply stripped_more; eapply prefix_stripped; eauto|apply stripped_more; eapply quote_stripped; eauto|apply blank_stripped; auto].
  - intros e I. apply stripped_more. auto.
  - unfold stripped. rewrite RC. vm_compute. intuition discriminate.
  - unfold stripped. rewrite LC. vm_compute. intuition discriminate.
Qed.
Lemma select_text : forall exprs a d don f w g h o l off semi s, transform (NSelect exprs a d don f w g h o l off semi) = Ok s ->
  exists c r, s = "SELECT" ++ c :: r /\ (c = 32%N \/ c = 10%N).
Proof.
  intros exprs a d don f w g h o l off semi s H. unfold transform in H. rewrite render_NSelect in H. apply rbind_Ok in H as (td & Hd & H). apply rbind_Ok in H as (te & _ & H).
  assert (D : td = [] \/ exists r, td = 32%N :: r).
  { destruct a; [injection Hd as <-; right; eexists; reflexivity|]. destruct d; [|injection Hd as <-; auto].
    destruct don as [[|x don]|]; try (injection Hd as <-; right; eexists; reflexivity). apply rbind_Ok in Hd as (? & _ & Hd). injection Hd as <-. right; eexists; reflexivity. }
  repeat (apply rbind_Ok in H as (? & _ & H)). cbv zeta in H. injection H as <-. cbn [Render.finish].
  rewrite <- !app_assoc. destruct D as [->|[r ->]].
  - destruct te as [|e [|e2 te]]; eexists _, _; (split; [reflexivity|auto]).
  - eexists _, _. split; [reflexivity|auto].
Qed.
Lemma new_select : forall p q f c r, legal_prefix p -> legal_quote q -> f = "SELECT" ++ c :: r -> c = 32%N \/ c = 10%N -> is_select_string (literal p q f) = true.
Proof.
  intros p q f c r P L -> C. apply select_string. unfold literal.
  assert (LT : legal_quote (tripled q)) by (cbn in L; destruct L as [<-|[<-|[<-|[<-|[]]]]]; cbn; auto).
  assert (CC : c = 32%N \/ is_linebreak c = true) by (destruct C as [->| ->]; auto).
  destruct (has 10 ("SELECT" ++ c :: r)).
  - exists (p ++ tripled q ++ nl), "SELECT", ((c :: r) ++ nl ++ tripled q). split; [rewrite <- !app_assoc; reflexivity|]. split; [|split; [reflexivity|right; eexists _, _; split; [reflexivity|exact CC]]].
    intros e I. rewrite !in_app_iff in I. destruct I as [I|[I|[<-|[]]]]; [eapply prefix_stripped; eauto|eapply quote_stripped; eauto|vm_compute; tauto].
  - exists (p ++ q), "SELECT", ((c :: r) ++ q). split; [rewrite <- !app_assoc; reflexivity|]. split; [|split; [reflexivity|right; eexists _, _; split; [reflexivity|exact CC]]].
    intros e I. rewrite !in_app_iff in I. destruct I as [I|I]; [eapply prefix_stripped; eauto|apply (quote_stripped q e L I)].
Qed.

(** ** The literal before and after *)
Lemma quotes_around : forall q, legal_quote q -> exists c u, quote_c c = true /\ q = c :: u /\ q = u ++ [c].
Proof. intros q L. cbn in L. destruct L as [<-|[<-|[<-|[<-|[]]]]]; eexists _, _; (split; [|split; reflexivity]); reflexivity. Qed.
Lemma literal_quotes : forall p q body f, legal_quote q -> exists c z z', quote_c c = true /\ p ++ q ++ body ++ q = p ++ c :: z ++ [c] /\ literal p q f = p ++ c :: z' ++ [c] /\ (f <> [] -> z' <> []).
Proof.
  intros p q body f L. cbn in L. unfold literal. destruct L as [<-|[<-|[<-|[<-|[]]]]]; cbn [tripled]; destruct (has 10 f).
  - exists 39%N, body, ([39; 39]%N ++ nl ++ f ++ nl ++ [39; 39]%N). repeat split; cbn [app]; rewrite <- ?app_assoc; cbn [app]; rewrite <- ?app_assoc; try reflexivity; discriminate.
  - exists 39%N, body, f. repeat split; auto.
  - exists 34%N, body, ([34; 34]%N ++ nl ++ f ++ nl ++ [34; 34]%N). repeat split; cbn [app]; rewrite <- ?app_assoc; cbn [app]; rewrite <- ?app_assoc; try reflexivity; discriminate.
  - exists 34%N, body, f. repeat split; auto.
  - exists 39%N, ([39; 39]%N ++ body ++ [39; 39]%N), ([39; 39]%N ++ nl ++ f ++ nl ++ [39; 39]%N). repeat split; cbn [app]; rewrite <- ?app_assoc; cbn [app]; rewrite <- ?app_assoc; try reflexivity; discriminate.
  - exists 39%N, ([39; 39]%N ++ body ++ [39; 39]%N), ([39; 39]%N ++ f ++ [39; 39]%N). repeat split; cbn [app]; rewrite <- ?app_assoc; cbn [app]; rewrite <- ?app_assoc; try reflexivity; discriminate.
  - exists 34%N, ([34; 34]%N ++ body ++ [34; 34]%N), ([34; 34]%N ++ nl ++ f ++ nl ++ [34; 34]%N). repeat split; cbn [app]; rewrite <- ?app_assoc; cbn [app]; rewrite <- ?app_assoc; try reflexivity; discriminate.
  - exists 34%N, ([34; 34]%N ++ body ++ [34; 34]%N), ([34; 34]%N ++ f ++ [34; 34]%N). repeat split; cbn [app]; rewrite <- ?app_assoc; cbn [app]; rewrite <- ?app_assoc; try reflexivity; discriminate.
Qed.
Theorem steady_literal : forall t, steady_query t -> sql_string t = true -> exists v Q Q', handle_sql_string (t_text t) = Ok (v, Q) /\ handle_sql_string v = Ok (v, Q')
  /\ (forall ord, errors_of ord (q_sql Q') = errors_of ord (q_sql Q)) /\ is_select_string v = true
  /\ contains "nosqlvalidation" v = contains "nosqlvalidation" (t_text t).
Proof.
  intros t H S. destruct (H S) as (p & q & body & n & ts & E & P & L & NQ & NB & TT & W & RD & PL & NV).
  destruct (respell n W ts RD) as (n' & W' & U & SP).
  assert (B : parse_sql body = Ok n') by (unfold parse_sql; rewrite TT; apply parse_spelling; auto).
  assert (F : fits q body) by (intros LL c r Eb; intros ->; apply NQ; rewrite Eb; left; reflexivity).
  assert (ST : steady n') by (apply plainly_steady; eapply plainly_up; eauto).
  destruct (round_trip n' W') as (f & R & _ & _ & FF).
  destruct (handle_literal p q body P L F) as (Q & QS & HH). assert (FB : format_sql body = Ok f) by (unfold format_sql; rewrite B; exact R).
  rewrite FB in HH. cbn [rbind] in HH. destruct (sel_head n' f (statement_shape n' W') R) as (c & r & Ef & UC).
  assert (X : exists Q', (q_sql Q' = nl ++ f ++ nl \/ q_sql Q' = f) /\ handle_sql_string (literal p q f) = Ok (literal p q f, Q')).
  { unfold literal. destruct (has 10 f) eqn:HN.
    - assert (LT : legal_quote (tripled q)) by (cbn in L; destruct L as [<-|[<-|[<-|[<-|[]]]]]; cbn; auto).
      assert (FT : fits (tripled q) (nl ++ f ++ nl)) by (intros LL; cbn in L; destruct L as [<-|[<-|[<-|[<-|[]]]]]; discriminate LL).
      destruct (handle_literal p (tripled q) (nl ++ f ++ nl) P LT FT) as (Q' & QS' & H'). rewrite (framed_format n' f W' R) in H'. cbn [rbind] in H'.
      exists Q'. split; auto. unfold literal in H'. rewrite HN in H'. rewrite <- !app_assoc in H'. rewrite H'. cbn in L; destruct L as [<-|[<-|[<-|[<-|[]]]]]; reflexivity.
    - assert (FT : fits q f) by (intros _ c' r' E'; rewrite Ef in E'; injection E' as <- _; apply quote_lower; auto).
      destruct (handle_literal p q f P L FT) as (Q' & QS' & H'). rewrite FF in H'. cbn [rbind] in H'. exists Q'. split; auto. unfold literal in H'. rewrite HN in H'. exact H'. }
  destruct X as (Q' & QS' & X). exists (literal p q f), Q, Q'. rewrite E. split; [exact HH|]. split; [exact X|]. split; [|split].
  - intros ord. destruct (framed_errors ord n' body f W' ST B R) as [A1 A2]. rewrite QS. destruct QS' as [-> | ->]; auto.
  - assert (SH := statement_shape n' W'). destruct n'; try discriminate SH.
    + destruct (select_text _ _ _ _ _ _ _ _ _ _ _ _ _ R) as (c0 & r0 & EF & CC). eapply new_select; eauto.
    + exfalso. unfold sql_string in S. destruct (t_type t); try discriminate. rewrite E in S.
      assert (SN := statement_shape n W). assert (exists qs s0, n = NWith qs s0) as (qs & s0 & ->) by (destruct n; try discriminate SN; [cbn [up] in U; discriminate U|eauto]).
      rewrite (with_not_select p q body ts qs s0 P L NB TT RD) in S. discriminate S.
  - unfold rewritten in NV. rewrite E, HH in NV. exact NV.
Qed.
Theorem steady_between : forall t, steady_query t -> between t.
Proof.
  intros t H S. destruct (H S) as (p & q & body & n & ts & E & P & L & NQ & NB & TT & W & RD & PL & NV).
  destruct (respell n W ts RD) as (n' & W' & U & SP).
  assert (B : parse_sql body = Ok n') by (unfold parse_sql; rewrite TT; apply parse_spelling; auto).
  assert (F : fits q body) by (intros LL c r Eb; intros ->; apply NQ; rewrite Eb; left; reflexivity).
  destruct (round_trip n' W') as (f & R & _). assert (FB : format_sql body = Ok f) by (unfold format_sql; rewrite B; exact R).
  destruct (handle_literal p q body P L F) as (Q & _ & HH). rewrite FB in HH. cbn [rbind] in HH.
  assert (RW : rewritten (t_text t) = literal p q f) by (unfold rewritten; rewrite E, HH; reflexivity).
  split; [|split].
  - rewrite RW. destruct (rewritten_one_literal p q body n ts P L NQ NB TT W RD) as (f' & F' & PY). rewrite FB in F'. injection F' as <-. unfold one_literal. rewrite PY.
    destruct (sel_head n' f (statement_shape n' W') R) as (d & r & Ef & _). rewrite Ef. destruct (literal_quotes p q body (d :: r) L) as (c & z & z' & QC & _ & LE & NZ). rewrite LE.
    assert (NP := legal_no_quote p P). rewrite before_quote_app; [|exact NP|cbn in QC; rewrite orb_false_r in QC; apply orb_true_iff in QC as [QC|QC]; apply N.eqb_eq in QC; auto].
    cbn [snd length andb]. apply Nat.ltb_lt. destruct z' as [|y z']; [contradiction NZ; [discriminate|reflexivity]|rewrite app_length; cbn [length]; lia].
  - rewrite RW, E. intros I. assert (I' : In 13%N p \/ In 13%N f).
    { unfold literal in I. cbn in L. destruct L as [<-|[<-|[<-|[<-|[]]]]]; destruct (has 10 f); cbn [tripled] in I; rewrite !in_app_iff in I; cbn [In nl] in I; intuition discriminate. }
    apply in_or_app. destruct I' as [I'|I']; auto. right. apply in_or_app. right. apply in_or_app. left.
    apply (no_new_chars n body ts f 13%N W (no_backslash_tame _ NB) TT RD FB); auto; [unfold blank; intuition discriminate|split; reflexivity].
  - rewrite RW, E. destruct (literal_quotes p q body f L) as (c & z & z' & QC & A & B' & _). exists p, c, z, z'. auto.
Qed.
