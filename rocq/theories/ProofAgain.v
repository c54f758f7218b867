(** Formatting an ordinary file gives an ordinary file. *)
From Verif Require Import PyStr Lib Tokeniser Ast Parser Render Validate Api PyTokens FileHandler Grammar SpecVal SpecFile SpecRun SpecRound SpecStable PyTokenize SpecTokenize
  SpecSource ProofFile ProofFile2 ProofFile3 ProofSource ProofLex ProofLex2 ProofTokenize ProofTokenize2 ProofTokenize3 ProofTokenize4 ProofTokenize5 ProofTokenize6 ProofInside ProofLine.
Local Open Scope str_scope.
Local Open Scope list_scope.

(** ** The end marker is the last token *)
Definition unended (ts : list ptok) : Prop := Forall (fun t => t_type (snd t) <> TEnd) ts.
Lemma go_on_unended : forall l a head ends s ts l1 m1 s1, go_on l a head ends s = More ts l1 m1 s1 -> unended ts.
Proof.
  intros l a head ends s ts l1 m1 s1 H. unfold go_on in H. destruct (cont_lines _ ends head s) as [[t r|t r]|]; [| |discriminate]; injection H as <- _ _ _; repeat constructor; discriminate.
Qed.
Lemma pseudo_kind : forall word s k text r, pseudo word s = FTok k text r -> k = TComment \/ k = TOther.
Proof.
  intros word s k text r H. unfold pseudo in H. destruct (match s with [] => None | c :: r0 => _ end) as [[? ?]|]; [discriminate|].
  destruct (startswith _ s); [destruct (span _ s); injection H as <- _ _; auto|].
  repeat match type of H with context [match ?x with _ => _ end] => destruct x; try discriminate H end; injection H as <- _ _; auto.
Qed.
Lemma step_unended : forall word w l m s ts l1 m1 s1, step word w l m s = More ts l1 m1 s1 -> unended ts.
Proof.
  intros word w l m s ts l1 m1 s1 H. destruct m as [con|]; cbn [step] in H.
  - unfold at_line in H. destruct (_ && _).
    + destruct s as [|d s]; [discriminate|]. destruct (span blank_c (d :: s)) as [ws [|e r]]; [discriminate|]. destruct (existsb _ _).
      * destruct (cut_line (e :: r)). destruct (N.eqb e 35); injection H as <- _ _ _; repeat constructor; discriminate.
      * destruct (_ <? _)%Z; [injection H as <- _ _ _; repeat constructor; discriminate|]. destruct (_ && _); [discriminate|].
        destruct (drop_ins _ _) as [k ins]. injection H as <- _ _ _. apply Forall_forall. intros y Y. apply repeat_spec in Y. subst. discriminate.
    + destruct s; [discriminate|]. injection H as <- _ _ _. constructor.
  - unfold inline in H. destruct (span blank_c s) as [ws [|e r]]; [injection H as <- _ _ _; constructor|]. pose proof (pseudo_kind word (e :: r)) as PS.
    destruct (pseudo word (e :: r)) as [rest|k text rest|text rest|pr q rest|pr q body rest|].
    + injection H as <- _ _ _; constructor.
    + destruct (PS k text rest eq_refl) as [-> | ->]; injection H as <- _ _ _; repeat constructor; discriminate.
    + injection H as <- _ _ _; repeat constructor. destruct (0 <? l_par l)%Z; discriminate.
    + destruct (l_need l).
      * destruct (cut_line rest) as [line rest']. destruct (tail3 false q line) as [[x y]|]; [injection H as <- _ _ _; repeat constructor; discriminate|apply go_on_unended in H; exact H].
      * destruct (tail3 true q rest) as [[x y]|]; [injection H as <- _ _ _; repeat constructor; discriminate|discriminate].
    + destruct (endswith [10%N] body); [apply go_on_unended in H; exact H|injection H as <- _ _ _; repeat constructor; discriminate].
    + destruct s as [|c s]; [discriminate|injection H as <- _ _ _; repeat constructor; discriminate].
Qed.
Definition ended (ts : list ptok) : Prop := unended ts \/ exists a e, ts = a ++ [e] /\ unended a.
Lemma step_ended : forall word w l m s ts o, step word w l m s = Done ts o -> ended ts.
Proof.
  intros word w l m s ts o H.
  assert (F : forall eof, PyTokenize.finish w eof l = Done ts o -> ended ts).
  { intros eof E. unfold PyTokenize.finish in E. injection E as <- _. right. eexists _, _. rewrite app_assoc. split; [reflexivity|]. apply Forall_app. split.
    - destruct (_ && _); repeat constructor; discriminate.
    - apply Forall_forall. intros y Y. apply in_map_iff in Y as (z & <- & _). discriminate. }
  assert (N : ended []) by (left; constructor).
  destruct m as [con|]; cbn [step] in H.
  - unfold at_line in H. destruct (_ && _).
    + destruct s as [|d s]; [eapply F; exact H|]. destruct (span blank_c (d :: s)) as [ws [|e r]]; [eapply F; exact H|]. destruct (existsb _ _).
      * destruct (cut_line (e :: r)). destruct (N.eqb e 35); discriminate.
      * destruct (_ <? _)%Z; [discriminate|]. destruct (_ && _); [injection H as <- _; exact N|]. destruct (drop_ins _ _); discriminate.
    + destruct s; [injection H as <- _; exact N|discriminate].
  - unfold inline, go_on in H. repeat match type of H with
      | context [match ?x with _ => _ end] => destruct x; try discriminate H
      | context [let '(_, _) := ?x in _] => destruct x; try discriminate H
      end; injection H as <- _; exact N.
Qed.
Lemma run_ended : forall word w fuel l m s, ended (fst (run word w fuel l m s)).
Proof.
  intros word w. induction fuel as [|fuel IH]; intros l m s; cbn [run]; [left; constructor|].
  destruct (step word w l m s) as [ts o|ts l1 m1 s1] eqn:SE; [eapply step_ended; exact SE|].
  apply step_unended in SE. specialize (IH l1 m1 s1). destruct (run word w fuel l1 m1 s1) as [us o]. cbn [fst] in *.
  destruct IH as [U|(a & e & -> & U)]; [left; apply Forall_app; auto|right]. exists (ts ++ a), e. rewrite app_assoc. split; auto. apply Forall_app; auto.
Qed.
Lemma end_last : forall word s ts eos a t r, generate_tokens word s = (ts, eos) -> ts = a ++ t :: r -> t_type t = TEnd -> r = [].
Proof.
  intros word s ts eos a t r G E T. unfold generate_tokens, tokenize in G. pose proof (run_ended word s (3 * length s + 3) lstate0 (AtLine false) s) as X.
  destruct (run word s _ lstate0 (AtLine false) s) as [us o]. cbn [fst] in X. injection G as <- _.
  assert (Y : unended us -> False).
  { intros U. assert (I : In t (map snd us)) by (rewrite E; apply in_or_app; right; left; auto). apply in_map_iff in I as (u & <- & I). unfold unended in U. rewrite Forall_forall in U. apply (U u I T). }
  destruct X as [U|(b & e & -> & U)]; [contradiction (Y U)|]. rewrite map_app in E. cbn [map] in E.
  destruct (exists_last (l := t :: r)) as (r' & z & Z); [discriminate|]. rewrite Z, app_assoc in E. apply app_inj_tail in E as [E _].
  destruct r' as [|t' r']; [destruct r as [|? r]; [auto|discriminate]|]. exfalso. injection Z as <- _.
  assert (I : In t (map snd b)) by (unfold ptok in *; rewrite E; apply in_or_app; right; left; auto). apply in_map_iff in I as (u & <- & I). unfold unended in U. rewrite Forall_forall in U. apply (U u I T).
Qed.

(** ** Occurrences *)
Lemma starts_stop : forall p a d x, ~ In d p -> startswith p (a ++ d :: x) = startswith p a.
Proof.
  induction p as [|c p IH]; intros a d x H; [destruct a; reflexivity|]. destruct a as [|e a]; cbn [app startswith].
  - destruct (N.eqb_spec c d) as [<-|]; auto. destruct H. left; auto.
  - rewrite IH; auto. intros I. apply H. right. auto.
Qed.
Lemma occ_stop : forall p a d x, p <> [] -> ~ In d p -> occurrences p (a ++ d :: x) = occurrences p a + occurrences p (d :: x).
Proof.
  intros p a d x NE H. induction a as [|c a IH]; [reflexivity|]. change ((c :: a) ++ d :: x) with (c :: (a ++ d :: x)). cbn [occurrences].
  change (c :: (a ++ d :: x)) with ((c :: a) ++ d :: x). rewrite starts_stop by auto. cbn [occurrences] in IH. rewrite IH. lia.
Qed.
Lemma occ_head : forall p d x, p <> [] -> ~ In d p -> occurrences p (d :: x) = occurrences p x.
Proof.
  intros p d x NE H. cbn [occurrences]. destruct p as [|c p]; [congruence|]. cbn [startswith]. destruct (N.eqb_spec c d) as [<-|]; [destruct H; left; auto|]. reflexivity.
Qed.
Lemma occ_quoted : forall w x p c z s, w <> [] -> ~ In c w ->
  occurrences w (x ++ (p ++ c :: z ++ [c]) ++ s) = occurrences w (x ++ p) + occurrences w z + occurrences w s
  /\ occurrences w (p ++ c :: z ++ [c]) = occurrences w p + occurrences w z.
Proof.
  intros w x p c z s NE H. split.
  - replace (x ++ (p ++ c :: z ++ [c]) ++ s) with ((x ++ p) ++ c :: (z ++ c :: s)) by (rewrite <- !app_assoc; cbn [app]; rewrite <- !app_assoc; reflexivity).
    rewrite occ_stop, occ_head, occ_stop, occ_head by auto. lia.
  - rewrite occ_stop, occ_head, occ_stop, occ_head by auto. cbn [occurrences]. lia.
Qed.
Definition requoted (w : str) (t t' : pytok) : Prop :=
  t_type t' = t_type t /\ (t_text t' = t_text t \/ t_type t = TString /\ exists p c z z', ~ In c w /\ t_text t = p ++ c :: z ++ [c] /\ t_text t' = p ++ c :: z' ++ [c]).
Definition share (p : str) (t : pytok) : nat := match t_type t with TString | TComment => occurrences p (t_text t) | _ => 0 end.
Lemma inside_cons : forall p t r, inside p (t :: r) = share p t + inside p r.
Proof. reflexivity. Qed.
Lemma occ_respelled : forall w a ts src ts' c, w <> [] -> respelled a ts src ts' c -> (forall a t r, ts = a ++ t :: r -> t_type t = TEnd -> r = []) ->
  Forall2 (requoted w) ts ts' -> forall x, occurrences w (x ++ c) + inside w ts = occurrences w (x ++ src) + inside w ts'.
Proof.
  intros w a ts src ts' c NE H. induction H as [a|a t r t' r' E|a t r s t' r' s' E H IH|a g t r s t' r' s' E S H IH|a g t r s t' r' s' E S H IH]; intros L F x.
  - reflexivity.
  - assert (r = []) as -> by (apply (L [] t r); auto). inversion F as [|? ? ? ? [Q _] F']; subst. inversion F'; subst. rewrite !inside_cons. unfold share. rewrite Q, E. reflexivity.
  - inversion F as [|? ? ? ? [Q _] F']; subst. assert (IH' := IH (fun a t0 r0 e => L (t :: a) t0 r0 (f_equal (cons t) e)) F' x). rewrite !inside_cons. unfold share. rewrite Q. destruct E as [E|E]; rewrite E; exact IH'.
  - inversion F as [|? ? ? ? [Q D] F']; subst. assert (IH' := IH (fun a t0 r0 e => L (t :: a) t0 r0 (f_equal (cons t) e)) F').
    destruct D as [D|[D _]]; [|destruct E as [E|E]; congruence]. rewrite !inside_cons. unfold share. rewrite Q, D.
    specialize (IH' (x ++ g ++ t_text t)). rewrite <- !app_assoc in IH'. lia.
  - inversion F as [|? ? ? ? [Q D] F']; subst. assert (IH' := IH (fun a t0 r0 e => L (t :: a) t0 r0 (f_equal (cons t) e)) F'). clear IH.
    rewrite !inside_cons. unfold share. rewrite Q. destruct D as [D|[D (p & d & z & z' & ND & T1 & T2)]].
    + rewrite D. specialize (IH' (x ++ g ++ t_text t)). rewrite <- !app_assoc in IH'. lia.
    + rewrite D, T1, T2. specialize (IH' []). cbn [app] in IH'. rewrite !(app_assoc x g).
      destruct (occ_quoted w (x ++ g) p d z s NE ND) as [-> ->]. destruct (occ_quoted w (x ++ g) p d z' s' NE ND) as [-> ->]. lia.
Qed.
Lemma respelled_chars : forall d a ts src ts' c, respelled a ts src ts' c -> Forall2 (fun t t' => In d (t_text t') -> In d (t_text t)) ts ts' -> In d c -> In d src.
Proof.
  intros d. induction 1 as [a|a t r t' r' E|a t r s t' r' s' E H IH|a g t r s t' r' s' E S H IH|a g t r s t' r' s' E S H IH]; intros F I; auto;
    inversion F as [|? ? ? ? D F']; subst; auto; rewrite !in_app_iff in *; destruct I as [I|[I|I]]; auto.
Qed.

(** ** The new file *)
Definition between (t : pytok) : Prop :=
  sql_string t = true -> one_literal (rewritten (t_text t)) = true /\ (In 13%N (rewritten (t_text t)) -> In 13%N (t_text t))
  /\ exists p c z z', quote_c c = true /\ t_text t = p ++ c :: z ++ [c] /\ rewritten (t_text t) = p ++ c :: z' ++ [c].
Lemma inside_kinds : forall p a b, map (fun t => (t_type t, t_text t)) a = map (fun t => (t_type t, t_text t)) b -> inside p a = inside p b.
Proof.
  induction a as [|t a IH]; intros [|u b] H; try discriminate; auto. cbn [map] in H. injection H as A B C. rewrite !inside_cons, (IH b C). unfold share. rewrite A, B. reflexivity.
Qed.
Lemma quote_untidy : forall c w, quote_c c = true -> In w UNTIDY -> ~ In c w.
Proof.
  intros c w Q I J. cbn in Q. rewrite orb_false_r in Q. apply orb_true_iff in Q as [Q|Q]; apply N.eqb_eq in Q; subst; cbn in I;
    (destruct I as [<-|[<-|[<-|[<-|[]]]]]); cbn in J; repeat (destruct J as [J|J]; [discriminate J|]); contradiction.
Qed.
Theorem ordinary_again : forall word ord fmt val src ts eos st r, ordinary word src = true -> generate_tokens word src = (ts, eos) ->
  compute_tokens ord fmt val ts eos = Ok st -> compute_file_content ord fmt val ts eos = Ok r -> (forall t, In t ts -> between t) ->
  ordinary word (r_content r) = true
  /\ exists ts2, generate_tokens word (r_content r) = (ts2, None) /\ map (fun t => (t_type t, t_text t)) ts2 = map (fun t => (t_type t, t_text t)) (c_tokens st).
Proof.
  intros word ord fmt val src ts eos st r H G C R B.
  destruct (new_content_tokens word ord fmt val src ts eos st r H G C R (fun t I S => proj1 (B t I S))) as (ts2 & T2 & F2 & K & CL2).
  split; [|exists (map snd ts2); unfold generate_tokens; rewrite T2; auto].
  destruct (ordinary_use word src H) as (ts0 & T & F & CS & CL & NI). assert (G' := G). unfold generate_tokens in G. rewrite T in G. injection G as <- <-.
  assert (X := tokenize_file word src ts0 T F CS CL NI).
  unfold compute_file_content in R. rewrite C in R. cbn [rbind] in R. inv_bind R. injection R as <-. cbn [r_content] in *.
  pose proof (compute_tokens_spec ord fmt val (map snd ts0) None) as SP. rewrite C in SP. destruct SP as (-> & _). cbn [c_tokens] in *.
  pose proof (new_tokens_place fmt val (map snd ts0)) as P.
  assert (P1 : Forall2 same_place (map snd ts0) (new_tokens fmt val (map snd ts0))) by (clear -P; induction P as [|? ? ? ? [A _]]; constructor; auto).
  destruct (untokenize_respelled src _ _ X P1) as (c & U & RS).
  rewrite U in Hb. injection Hb as Hb. subst a.
  assert (RQ : forall w, In w UNTIDY -> Forall2 (requoted w) (map snd ts0) (new_tokens fmt val (map snd ts0))).
  { intros w I. clear -P B I. revert B P. generalize (map snd ts0), (new_tokens fmt val (map snd ts0)). intros l l' B P.
    induction P as [|t t' l l' [(KD & _ & _) D] P IH]; constructor; [|apply IH; intros; apply B; right; auto].
    split; [exact KD|]. destruct D as [D|[Q D]]; auto. destruct (B t (or_introl eq_refl) Q) as (_ & _ & p & d & z & z' & QC & E1 & E2). right. split.
    - unfold sql_string in Q. destruct (t_type t); congruence.
    - exists p, d, z, z'. split; [apply quote_untidy; auto|]. split; auto. rewrite D. exact E2. }
  assert (EL := fun a t r => end_last word src _ _ a t r G').
  assert (OCC : forall w, In w UNTIDY -> occurrences w c = inside w (map snd ts2)).
  { intros w I. assert (NE : w <> []) by (intros ->; cbn in I; intuition discriminate).
    assert (Y := occ_respelled w _ _ _ _ _ NE RS EL (RQ w I) []). cbn [app] in Y.
    rewrite (inside_kinds w (map snd ts2) _ K).
    assert (Z : occurrences w src = inside w (map snd ts0)); [|unfold ptok in *; lia].
    unfold ordinary in H. apply andb_true_iff in H as [_ H]. rewrite T in H. destruct ts0 as [|t0 ts0]; [discriminate|].
    apply andb_true_iff in H as [_ H]. rewrite forallb_forall in H. specialize (H w I). apply Nat.eqb_eq in H. exact H. }
  assert (N13 : ~ In 13%N c).
  { intros I. destruct CL as [N13 _]. apply N13. apply (respelled_chars _ _ _ _ _ _ RS); auto. clear -P B. revert B P. generalize (map snd ts0), (new_tokens fmt val (map snd ts0)).
    intros l l' B P. induction P as [|t t' l l' [_ D] P IH]; constructor; [|apply IH; intros; apply B; right; auto].
    destruct D as [D|[Q D]]; rewrite D; auto. apply (B t (or_introl eq_refl) Q). }
  unfold ordinary. rewrite T2.
  assert (RV : match rev c with [] => true | d :: _ => N.eqb d 10 end = true).
  { destruct CL2 as [->|[x ->]]; [reflexivity|]. rewrite rev_app_distr. reflexivity. }
  rewrite RV. assert (H13 : has 13 c = false) by (apply has_false; exact N13). rewrite H13. cbn [negb andb].
  destruct ts2 as [|t2 ts2].
  - exfalso. destruct ts0 as [|t0 ts0]; [|discriminate K]. unfold ordinary in H. apply andb_true_iff in H as [_ H]. rewrite T in H. discriminate.
  - rewrite F2. cbn [negb andb]. apply andb_true_iff. split.
    + destruct ts0 as [|t0 ts0]; [discriminate K|]. cbn [map new_tokens] in K. injection K as K _ _. rewrite K. cbn [t_type]. destruct (t_type (snd t0)); try reflexivity. contradiction NI; reflexivity.
    + apply forallb_forall. intros w I. apply Nat.eqb_eq. apply OCC. exact I.
Qed.
