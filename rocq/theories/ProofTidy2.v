(** Statements of the fragment are tidy, so their formatted text is neat. *)
From Verif Require Import PyStr Lib AstLib Ast Grammar Render SpecLayout SpecTidy ProofTok GramTok GramNest Parser Api GramRound ProofTidy.
Local Open Scope str_scope.
Local Open Scope list_scope.

(** ** The fragment *)
Lemma first_child : forall n c, first_only n -> In c (children n) -> first_only c.
Proof. intros n c F I args a O. apply (F args a). econstructor; eauto. Qed.
Lemma tidy_intro : forall n, tidy_node n = true -> (forall c, In c (children n) -> tidy c) -> tidy n.
Proof. intros n N C x O. destruct O as [|c n I O]; auto. apply (C c I x O). Qed.
Lemma plain_of : forall v, v <> [] -> (forall c, In c v -> c <> 10%N /\ blank_c c = false) -> plain v = true.
Proof.
  intros v N A. unfold plain. apply andb_true_iff. split.
  - apply negb_true_iff. destruct (has 10 v) eqn:H; auto. apply has_In in H. destruct (A _ H). congruence.
  - destruct (rev v) as [|c r] eqn:R; [apply (f_equal (@rev _)) in R; rewrite rev_involutive in R; cbn in R; congruence|].
    assert (I : In c v) by (apply in_rev; rewrite R; left; auto). destruct (A c I) as [_ ->]. reflexivity.
Qed.
Lemma word_plain : forall v, word v = true -> plain v = true.
Proof.
  intros v H. unfold word in H. apply andb_true_iff in H as [H F]. apply plain_of; [intros ->; discriminate H|]. intros c I. rewrite forallb_forall in F. apply F in I.
  unfold word_char in I. apply negb_true_iff in I. cbn [existsb] in I. unfold blank_c. split; [intros ->; discriminate I|].
  assert (A : c <> 32%N) by (intros ->; discriminate I). assert (B : c <> 9%N) by (intros ->; discriminate I). apply N.eqb_neq in A, B. rewrite A, B. reflexivity.
Qed.
Lemma ident_plain : forall v, ident v = true -> plain v = true.
Proof. intros v H. unfold ident in H. apply andb_true_iff in H as [H _]. apply andb_true_iff in H as [H _]. apply word_plain, H. Qed.
Lemma mem_plain : forall l v, forallb plain l = true -> mem v l = true -> plain v = true.
Proof. intros l v F M. rewrite forallb_forall in F. apply F, mem_In, M. Qed.
Lemma lower_c10 : forall c, N.eqb (lower_c c) 10 = N.eqb c 10 /\ blank_c (lower_c c) = blank_c c.
Proof.
  intros c. unfold lower_c, is_upper_c, blank_c. destruct ((65 <=? c)%N && (c <=? 90)%N) eqn:X; [|auto]. apply andb_true_iff in X as [A B]. apply N.leb_le in A, B.
  destruct (N.eqb_spec (c + 32) 10); [lia|]. destruct (N.eqb_spec c 10); [lia|]. split; auto.
  destruct (N.eqb_spec (c + 32) 32); [lia|]. destruct (N.eqb_spec c 32); [lia|]. destruct (N.eqb_spec (c + 32) 9); [lia|]. destruct (N.eqb_spec c 9); [lia|]. auto.
Qed.
Lemma plain_iff : forall v, plain v = true <-> ~ In 10%N v /\ exists i c, v = i ++ [c] /\ blank_c c = false.
Proof.
  intros v. unfold plain. rewrite andb_true_iff, negb_true_iff. split; intros [A B]; split.
  - intros I. apply has_In in I. congruence.
  - destruct (rev v) as [|c r] eqn:R; [discriminate B|]. exists (rev r), c. apply negb_true_iff in B. split; auto. rewrite <- (rev_involutive v), R. reflexivity.
  - destruct (has 10 v) eqn:H; auto. apply has_In in H. contradiction.
  - destruct B as (i & c & -> & B). rewrite rev_app_distr. cbn. rewrite B. reflexivity.
Qed.
Lemma plain_lower : forall v, plain (lower v) = true -> plain v = true.
Proof.
  intros v H. apply plain_iff in H as (N & i & c & E & B). apply plain_iff. split.
  - intros I. apply N. unfold lower. apply (in_map lower_c) in I. exact I.
  - unfold lower in E. destruct v as [|x v] using rev_ind; [destruct i; discriminate E|]. rewrite map_app in E. apply app_inj_tail in E as [_ E]. exists v, x. split; auto. rewrite <- B, <- E. symmetry. apply lower_c10.
Qed.
Lemma plain_app : forall a b, ~ In 10%N a -> plain b = true -> plain (a ++ b) = true.
Proof.
  intros a b N H. apply plain_iff in H as (N' & i & c & -> & B). apply plain_iff. split; [intros I; apply in_app_or in I as [I|I]; auto|].
  exists (a ++ i), c. rewrite app_assoc. auto.
Qed.
Lemma words_plain : forall v, forallb plain (split 32 v) = true -> plain v = true.
Proof.
  intros v F. rewrite <- (join_split 32 v). assert (N : split 32 v <> []) by (destruct v; cbn [split]; [discriminate|destruct (N.eqb _ _); [discriminate|destruct (split 32 v); discriminate]]).
  induction (split 32 v) as [|x l IH]; [congruence|]. cbn [forallb] in F. apply andb_true_iff in F as [X F]. destruct l as [|y l]; [exact X|].
  change (plain (x ++ " " ++ join [32%N] (y :: l)) = true). apply plain_app; [apply plain_iff in X; apply X|]. apply plain_app; [intros [D|[]]; discriminate D|]. apply IH; auto. discriminate.
Qed.
(** Contents of a literal have no line break. *)
Lemma content_flat : forall v, content v = true -> has 10 v = false.
Proof.
  intros v H. unfold content in H. apply andb_true_iff in H as [H _]. apply andb_true_iff in H as [H _]. destruct (has 10 v) eqn:X; auto. apply has_In in X.
  rewrite forallb_forall in H. apply H in X. discriminate X.
Qed.
Lemma float_plain : forall t, float_ok t = true -> plain t = true.
Proof.
  intros t H. unfold float_ok in H. apply andb_true_iff in H as [H _]. apply andb_true_iff in H as [H _]. apply andb_true_iff in H as [H F]. apply plain_of; [intros ->; discriminate H|].
  intros c I. rewrite forallb_forall in F. apply F in I. unfold blank_c. apply orb_true_iff in I as [I|I].
  - unfold is_digit_c in I. apply andb_true_iff in I as [A B]. apply N.leb_le in A, B. split; [lia|]. assert (X : c <> 32%N) by lia. assert (Y : c <> 9%N) by lia. apply N.eqb_neq in X, Y. rewrite X, Y. reflexivity.
  - apply N.eqb_eq in I. subst. split; [discriminate|reflexivity].
Qed.
Lemma split_words : forall v l, forallb plain l = true -> forallb (fun w => mem w l) (split 32 (lower v)) = true -> plain v = true.
Proof.
  intros v l P F. apply plain_lower, words_plain. rewrite forallb_forall in *. intros w I. apply F in I. apply P, mem_In, I.
Qed.
Lemma arg_ex : forall a, argok a = true -> is_sel a = false -> wf Ex a = true.
Proof. intros a H S. unfold argok in H. rewrite S in H. apply andb_true_iff in H. apply H. Qed.
Lemma upto_nosel : forall k l, forallb (upto k) l = true -> no_sel l = true.
Proof.
  intros k l H. unfold no_sel. rewrite forallb_forall in *. intros x I. apply H in I. apply upto_and in I as [I _]. destruct x; auto; discriminate I.
Qed.
Lemma ex_nosel : forall x, wf Ex x = true -> is_sel x = false.
Proof. intros x H. destruct x; auto; discriminate H. Qed.
Lemma items_nosel : forall o, oall itemsok o = true -> no_sel (ollist o) = true.
Proof.
  intros [l|] H; auto. cbn [oall] in H. unfold itemsok in H. apply andb_true_iff in H as [_ H]. unfold no_sel. cbn [ollist]. rewrite forallb_forall in *. intros x I. apply H in I. destruct x; auto; discriminate I.
Qed.
Ltac notin := cbn [children olist ollist map]; repeat first [rewrite in_app_iff | progress cbn [In]]; tauto.
Ltac leafy := apply tidy_intro; [|intros x []].
Lemma wf_tidy : forall n c, wf c n = true -> first_only n -> tidy n.
Proof.
  intros n. induction n as [n IH] using node_inside_ind. intros c W F.
  assert (FI : forall x, inside x n -> first_only x) by (intros x (d & I & O) args a O'; apply (F args a); econstructor; [exact I|]; eapply occurs_trans; eassumption).
  assert (SUB : forall c x, In x (children n) -> wf c x = true -> tidy x) by (intros c' x I WX; apply inside_child in I; eapply IH; eauto).
  assert (SUB2 : forall c x d, In d (children n) -> In x (children d) -> wf c x = true -> tidy x) by (intros c' x d I J WX; pose proof (inside_child2 x d n I J); eapply IH; eauto).
  assert (ARG : forall x, In x (children n) -> argok x = true -> tidy x).
  { intros x I A. unfold argok in A. destruct (is_sel x); apply andb_true_iff in A as [A _]; eapply SUB; eauto. }
  assert (ARG2 : forall x d, In d (children n) -> In x (children d) -> argok x = true -> tidy x).
  { intros x d I J A. unfold argok in A. destruct (is_sel x); apply andb_true_iff in A as [A _]; eapply SUB2; eauto. }
  assert (ARGS : forall l, forallb argok l = true -> (forall x, In x l -> In x (children n)) -> forall x, In x l -> tidy x).
  { intros l A S x I. rewrite forallb_forall in A. apply ARG; auto. }
  assert (UPS : forall k l, forallb (upto k) l = true -> (forall x, In x l -> In x (children n)) -> forall x, In x l -> tidy x).
  { intros k l A S x I. rewrite forallb_forall in A. apply A in I as J. apply upto_and in J as [J _]. eapply SUB; eauto. }
  assert (ITEMS : forall o, oall itemsok o = true -> (forall x, In x (ollist o) -> In x (children n)) -> forall x, In x (ollist o) -> tidy x).
  { intros [l|] A S x I; [|destruct I]. cbn [oall ollist] in *. unfold itemsok in A. apply andb_true_iff in A as [_ A]. rewrite forallb_forall in A. apply A in I as J. unfold itemok in J. destruct x; try discriminate J. bools.
    apply tidy_intro; [cbn [tidy_node]; rewrite ex_nosel by assumption; reflexivity|]. intros y [<-|[]]. eapply (SUB2 Ex); [apply S, I|left; reflexivity|assumption]. }
  assert (COND : forall x, In x (children n) -> condok x = true -> tidy x) by (intros x I A; unfold condok in A; bools; eapply SUB; eauto).
  assert (ALS : forall a, alsok a = true -> match a with inl s => plain s = true | inr x => is_sel x = false /\ (In x (children n) -> tidy x) end).
  { intros [s|x] A; cbn [alsok] in A; [apply ident_plain, A|]. bools. split; [apply ex_nosel; assumption|]. intros I. eapply SUB; eauto. }
  destruct c; destruct n; try discriminate W.
  - rewrite wf_fun in W. bools. apply tidy_intro; [apply ident_plain; assumption|]. eapply ARGS; [eassumption|]. auto.
  - rewrite wf_cast in W. bools. apply tidy_intro; [apply ident_plain; assumption|]. intros x [<-|[]]. eapply SUB; [left; reflexivity|eassumption].
  - rewrite wf_count in W. bools. apply tidy_intro; [reflexivity|]. eapply ARGS; [eassumption|]. auto.
  - rewrite wf_arrayagg in W. bools. apply tidy_intro; [apply items_nosel; assumption|]. intros x [<-|I]; [eapply SUB; [left; reflexivity|eassumption]|]. eapply ITEMS; [eassumption| |exact I]. intros y J. right. exact J.
  - rewrite wf_filtered in W. bools. apply tidy_intro; [reflexivity|]. intros x [<-|[<-|[]]]; eapply SUB; try eassumption; [left|right; left]; reflexivity.
  - rewrite wf_analytics in W. bools. apply tidy_intro.
    + cbn [tidy_node]. rewrite items_nosel by assumption. destruct frame as [[rr fr]|]; auto. cbn [oall andb fst snd] in *. match goal with H : frameok _ = true |- _ => unfold frameok in H; cbn [fst snd] in H end. bools.
      apply andb_true_iff. split; [apply plain_lower; eapply mem_plain; [|apply mem_In; eassumption]; reflexivity|]. apply words_plain. rewrite forallb_forall in *. intros w I. match goal with H : forall x, In x (split _ _) -> _ |- _ => apply H in I end. bools. apply word_plain; assumption.
    + intros x [<-|I]; [eapply SUB; [left; reflexivity|eassumption]|]. apply in_app_or in I as [I|I].
      * destruct partition as [l|]; [|destruct I]. cbn [oall ollist] in *. bools. eapply UPS; [eassumption| |exact I]. intros y J. notin.
      * eapply ITEMS; [eassumption| |exact I]. intros y J. notin.
  - leafy. cbn [wf] in W. apply orb_true_iff in W as [W|W]; [apply ident_plain, W|]. apply str_eqb_eq in W. subst. reflexivity.
  - rewrite wf_chained in W. bools. apply tidy_intro; [reflexivity|]. intros x [<-|[<-|[]]]; eapply SUB; try eassumption; [left|right; left]; reflexivity.
  - rewrite wf_datepart in W. bools. apply tidy_intro; [apply plain_lower; eapply mem_plain; [|apply mem_In; eassumption]; reflexivity|]. intros x [<-|[]]. eapply SUB; [left; reflexivity|eassumption].
  - leafy. cbn [wf] in W. destruct prefix; [discriminate W|]. apply andb_true_iff in W as [Q C]. cbn [tidy_node oall]. rewrite (content_flat _ C). rewrite (mem_plain QUOTES _ eq_refl Q). reflexivity.
  - leafy. reflexivity.
  - leafy. cbn [tidy_node]. cbn [wf] in W. destruct text as [|c r]; [discriminate W|]. destruct (N.eq_dec c 45) as [->|NE].
    + apply (plain_app [45%N]); [intros [X|[]]; discriminate X|apply float_plain, W].
    + apply float_plain. destruct c as [|p]; auto. destruct p as [p|p|]; auto. destruct p as [p|p|]; auto. destruct p as [p|p|]; auto. destruct p as [p|p|]; auto. destruct p as [p|p|]; auto. destruct p as [p|p|]; auto.
  - leafy. reflexivity.
  - leafy. reflexivity.
  - rewrite wf_paren in W. apply tidy_intro; [|eapply ARGS; [eassumption|auto]]. cbn [tidy_node]. unfold no_sel. apply forallb_forall. intros x I. apply negb_true_iff. exact (F args x (occurs_here _) I).
  - rewrite wf_array in W. apply tidy_intro; [reflexivity|]. eapply ARGS; [eassumption|auto].
  - rewrite wf_alias in W. bools. apply tidy_intro.
    + cbn [tidy_node]. unfold aliasok in *. destruct with_as, alias; try discriminate; bools; try (apply ident_plain; assumption); rewrite ex_nosel by assumption; reflexivity.
    + intros x [<-|I]; [eapply SUB; [left; reflexivity|eassumption]|]. destruct alias as [s|y]; [destruct I|]. destruct I as [<-|[]]. unfold aliasok in *. eapply (SUB Ex); [right; left; reflexivity|]. destruct with_as; bools; assumption.
  - rewrite wf_index in W. bools. apply tidy_intro; [reflexivity|]. intros x [<-|I]; [eapply SUB; [left; reflexivity|eassumption]|]. eapply ARGS; [eassumption| |exact I]. intros y J. right. exact J.
  - rewrite wf_arith in W. bools. apply tidy_intro.
    + cbn [tidy_node no_sel forallb]. rewrite !ex_nosel by assumption. rewrite andb_true_r. eapply mem_plain; [|apply mem_In; eassumption]. reflexivity.
    + intros x [<-|[<-|[]]]; eapply SUB; try eassumption; [left|right; left]; reflexivity.
  - rewrite wf_bitwise in W. bools. apply tidy_intro; [eapply mem_plain; [|apply mem_In; eassumption]; reflexivity|]. intros x [<-|[<-|[]]]; eapply SUB; try eassumption; [left|right; left]; reflexivity.
  - rewrite wf_cond in W. apply andb_true_iff in W as [W1 W2]. bools. destruct (str_eqb (lower pred) "between") eqn:BT.
    + destruct n2; try discriminate W2. bools. subst ty. apply tidy_intro; [apply plain_lower; cbn [tidy_node]; rewrite BT; reflexivity|].
      intros x [<-|[<-|[]]]; [eapply SUB; [left; reflexivity|eassumption]|]. apply tidy_intro; [reflexivity|].
      intros x [<-|[<-|[]]]; (eapply (SUB2 Ex); [right; left; reflexivity| |eassumption]); [left|right; left]; reflexivity.
    + apply andb_true_iff in W2 as [W2 _]. apply andb_true_iff in W2 as [W2 _]. apply andb_true_iff in W2 as [PR W2]. apply tidy_intro.
      * apply orb_true_iff in PR as [PR|PR]; [eapply mem_plain; [|exact PR]; reflexivity|]. apply plain_lower. eapply mem_plain; [|exact PR]. reflexivity.
      * intros x [<-|[<-|[]]]; eapply SUB; try eassumption; [left|right; left]; reflexivity.
  - rewrite wf_boolc in W. bools. apply tidy_intro; [apply plain_lower; eapply mem_plain; [|apply mem_In; eassumption]; reflexivity|]. intros x [<-|[<-|[]]]; eapply SUB; try eassumption; [left|right; left]; reflexivity.
  - rewrite wf_neg in W. bools. apply tidy_intro; [reflexivity|]. intros x [<-|[]]. eapply SUB; [left; reflexivity|eassumption].
  - rewrite wf_except in W. bools. apply tidy_intro; [reflexivity|]. intros x [<-|I]; [eapply SUB; [left; reflexivity|eassumption]|]. eapply ARGS; [eassumption| |exact I]. intros y J. right. exact J.
  - rewrite wf_replace in W. bools. apply tidy_intro; [reflexivity|]. intros x [<-|I]; [eapply SUB; [left; reflexivity|eassumption]|]. eapply ARGS; [eassumption| |exact I]. intros y J. right. exact J.
  - rewrite wf_case in W. apply andb_true_iff in W as [W WE]. apply andb_true_iff in W as [W WW]. apply andb_true_iff in W as [W WN].
    assert (WT : forall wt, In wt whens -> wf Ex (fst wt) = true /\ wf Ex (snd wt) = true) by (intros wt I; rewrite forallb_forall in WW; apply WW in I; unfold wtok in I; bools; auto).
    apply tidy_intro.
    + cbn [tidy_node]. rewrite WN. unfold no_sel. cbn [andb]. apply forallb_forall. intros x I. apply in_map_iff in I as (wt & <- & I). apply WT in I as [_ I]. rewrite ex_nosel by exact I. reflexivity.
    + intros x I. pose proof I as J. cbn [children] in I. apply in_app_or in I as [I|I]; [destruct e as [y|]; [|destruct I]; destruct I as [<-|[]]; cbn [oall] in W; bools; eapply SUB; eassumption|].
      apply in_app_or in I as [I|I]; [apply in_map_iff in I as (wt & <- & I); apply WT in I as [I _]; eapply SUB; eassumption|].
      apply in_app_or in I as [I|I]; [apply in_map_iff in I as (wt & <- & I); apply WT in I as [_ I]; eapply SUB; eassumption|].
      destruct els as [y|]; [|destruct I]. destruct I as [<-|[]]. cbn [oall] in WE. bools. eapply SUB; eassumption.
  - apply tidy_intro; [cbn [tidy_node]; unfold no_sel; apply forallb_forall; intros x I; apply negb_true_iff; exact (F args x (occurs_here _) I)|].
    cbn [wf] in W. destruct args as [|f [|g r]]; try discriminate W. intros x [<-|[]]. destruct (is_sel f || is_wth f); eapply SUB; eauto; left; reflexivity.
  - rewrite wf_falias in W. apply andb_true_iff in W as [W _]. apply andb_true_iff in W as [W A]. apply ALS in A. apply tidy_intro.
    + cbn [tidy_node]. destruct alias; auto. destruct A as [-> _]. reflexivity.
    + intros x [<-|I]; [eapply SUB; [left; reflexivity|eassumption]|]. destruct alias as [s|y]; [destruct I|]. destruct I as [<-|[]]. apply A. right. left. reflexivity.
  - rewrite wf_table in W. apply tidy_intro; [reflexivity|]. intros x [<-|[]]. destruct brackets; [bools; eapply SUB; [left; reflexivity|eassumption]|]. unfold tableok in W. apply andb_true_iff in W as [W _]. eapply SUB; [left; reflexivity|eassumption].
  - rewrite wf_unnest in W. apply andb_true_iff in W as [W A]. apply andb_true_iff in W as [W _]. apply tidy_intro.
    + cbn [tidy_node]. destruct alias as [a|]; auto. cbn [oall]. bools. apply ident_plain; assumption.
    + intros x [<-|[]]. unfold unnestok in W. destruct n; try discriminate W.
      * bools. subst name. apply tidy_intro; [reflexivity|]. intros x I. rewrite forallb_forall in *. eapply ARG2; [left; reflexivity|exact I|auto].
      * destruct n; try discriminate W. apply andb_true_iff in W as [W WA]. apply andb_true_iff in W as [WN WL]. apply str_eqb_eq in WN. subst name.
        apply tidy_intro; [cbn [tidy_node]; destruct alias0; cbn [alsok] in WA; [apply ident_plain, WA|bools; rewrite ex_nosel by assumption; reflexivity]|].
        intros x [<-|I].
        -- apply tidy_intro; [reflexivity|]. intros x I. rewrite forallb_forall in WL. specialize (WL x I).
           assert (IN : inside x (NUnnest (NAlias (NFun "unnest" args) alias0 with_as) with_offset with_offset_as alias)).
           { eexists. split; [left; reflexivity|]. econstructor; [left; reflexivity|]. econstructor; [exact I|]. constructor. }
           unfold argok in WL. destruct (is_sel x); apply andb_true_iff in WL as [WL _]; eapply IH; eauto.
        -- destruct alias0 as [s|y]; [destruct I|]. destruct I as [<-|[]]. cbn [alsok] in WA. bools. eapply (SUB2 Ex); [left; reflexivity|right; left; reflexivity|assumption].
  - rewrite wf_join in W. apply andb_true_iff in W as [W J]. bools. unfold joinok in J. apply tidy_intro.
    + cbn [tidy_node]. destruct (mem ty ["CROSS JOIN"; ","]) eqn:M; [eapply mem_plain; [|exact M]; reflexivity|]. apply andb_true_iff in J as [J _]. apply andb_true_iff in J as [J _]. unfold join_words in J. apply andb_true_iff in J as [_ J].
      eapply split_words; [|exact J]. reflexivity.
    + intros x I. pose proof I as I'. destruct I as [<-|[<-|I]]; [eapply SUB; eassumption|eapply SUB; eassumption|].
      destruct (mem ty ["CROSS JOIN"; ","]); [destruct on_; [discriminate J|]; destruct using_; [discriminate J|]; destruct I|]. apply andb_true_iff in J as [_ J].
      destruct on_ as [y|], using_ as [z|]; try discriminate J; destruct I as [<-|[]]; apply COND; auto.
  - rewrite wf_combined in W. apply andb_true_iff in W as [W _]. apply andb_true_iff in W as [W R]. bools. apply tidy_intro.
    + cbn [tidy_node]. match goal with H : set_words _ = true |- _ => unfold set_words in H; apply andb_true_iff in H as [_ H]; eapply split_words; [|exact H]; reflexivity end.
    + intros x [<-|[<-|[]]]; [eapply SUB; [left; reflexivity|eassumption]|]. destruct (is_sel n2); bools; eapply SUB; try eassumption; right; left; reflexivity.
  - rewrite wf_select in W. repeat match type of W with _ && _ = true => let W' := fresh "W" in apply andb_true_iff in W as [W W'] end.
    apply tidy_intro.
    + cbn [tidy_node]. assert (A1 : no_sel (ollist distinct_on) = true) by (unfold donok in *; destruct distinct_on as [l|]; auto; bools; eapply upto_nosel; eassumption).
      assert (A2 : no_sel match group with Some (a, _, _) => a | None => [] end = true) by (unfold groupok in *; destruct group as [[[l r] ea]|]; auto; bools; eapply upto_nosel; eassumption).
      assert (A3 : no_sel match limit with Some (_, Some x) => [x] | _ => [] end = true).
      { unfold limitok in *. destruct limit as [[[] [x|]]|]; auto; try discriminate. bools. unfold no_sel. cbn [forallb]. rewrite ex_nosel by assumption. reflexivity. }
      assert (A4 : no_sel (olist offset) = true) by (destruct offset as [x|]; auto; cbn [oall] in *; bools; unfold no_sel; cbn [olist forallb]; rewrite ex_nosel by assumption; reflexivity).
      rewrite A1, A2, A3, A4, items_nosel by assumption. repeat (rewrite andb_true_r). assumption.
    + intros x I. pose proof I as I'. cbn [children] in I.
      apply in_app_or in I as [I|I]; [eapply (UPS 7 exprs); [eassumption| |exact I]; intros y J; cbn [children]; apply in_or_app; auto|].
      apply in_app_or in I as [I|I]; [unfold donok in *; destruct distinct_on as [l|]; [|destruct I]; bools; eapply (UPS 3 l); [eassumption| |exact I]; intros y J; notin|].
      apply in_app_or in I as [I|I]; [destruct from_ as [y|]; [|destruct I]; destruct I as [<-|[]]; cbn [oall] in *; eapply SUB; eassumption|].
      apply in_app_or in I as [I|I]; [destruct where_ as [y|]; [|destruct I]; destruct I as [<-|[]]; cbn [oall] in *; apply COND; assumption|].
      apply in_app_or in I as [I|I]; [unfold groupok in *; destruct group as [[[l r] ea]|]; [|destruct I]; bools; eapply (UPS 3 l); [eassumption| |exact I]; intros y J; notin|].
      apply in_app_or in I as [I|I]; [destruct having as [y|]; [|destruct I]; destruct I as [<-|[]]; cbn [oall] in *; apply COND; assumption|].
      apply in_app_or in I as [I|I]; [eapply ITEMS; [eassumption| |exact I]; intros y J; notin|].
      apply in_app_or in I as [I|I]; [unfold limitok in *; destruct limit as [[[] [y|]]|]; try discriminate; cbn [In] in I; try contradiction; destruct I as [<-|[]]; bools; eapply SUB; eassumption|].
      destruct offset as [y|]; [|destruct I]. destruct I as [<-|[]]. cbn [oall] in *. bools. eapply SUB; eassumption.
  - rewrite wf_with in W. apply andb_true_iff in W as [W WS]. apply andb_true_iff in W as [W SS]. apply andb_true_iff in W as [WN WQ]. rewrite forallb_forall in WQ.
    apply tidy_intro.
    + cbn [tidy_node]. rewrite WN. cbn [andb]. apply forallb_forall. intros q I. apply WQ in I. unfold wqok in I. bools. apply ident_plain; assumption.
    + intros x I. pose proof I as I'. cbn [children] in I. apply in_app_or in I as [I|[<-|[]]]; [|eapply SUB; eassumption]. apply in_map_iff in I as (q & <- & I). apply WQ in I. unfold wqok in I. bools. eapply SUB; eassumption.
Qed.
Lemma tidy_semi : forall b n, tidy (with_semi b n) -> tidy n.
Proof.
  intros b n T. destruct n; try exact T; cbn [with_semi] in T.
  - apply tidy_intro; [exact (T _ (occurs_here _))|]. intros c I. exact (tidy_child _ c T I).
  - destruct n; try exact T. apply tidy_intro; [exact (T _ (occurs_here _))|]. intros c I. cbn [children] in I. apply in_app_or in I as [I|[<-|[]]].
    + apply (tidy_child _ c T). cbn [children]. apply in_or_app. auto.
    + assert (T' : tidy (NSelect exprs sel_all sel_distinct distinct_on from_ where_ group having order limit offset b)) by (apply (tidy_child _ _ T); cbn [children]; apply in_or_app; right; left; reflexivity).
      apply tidy_intro; [exact (T' _ (occurs_here _))|]. intros c I. exact (tidy_child _ c T' I).
Qed.
Lemma first_semi : forall b n, first_only n -> first_only (with_semi b n).
Proof.
  assert (S : forall b n, is_sel n = true -> forall x, x <> with_semi b n -> occurs x (with_semi b n) -> occurs x n).
  { intros b n S x NE O. destruct n; try discriminate S. cbn [with_semi] in *. inversion O as [|c m I O']; subst; [congruence|]. econstructor; [exact I|exact O']. }
  intros b n F args a O J. apply (F args a); auto. destruct n; try exact O.
  - apply (S b) in O; auto. discriminate.
  - cbn [with_semi] in O. destruct n; try exact O. inversion O as [|c m I O']; subst. cbn [children] in I. apply in_app_or in I as [I|[<-|[]]].
    + econstructor; [cbn [children]; apply in_or_app; left; exact I|exact O'].
    + apply (S b (NSelect exprs sel_all sel_distinct distinct_on from_ where_ group having order limit offset semi)) in O'; auto; [|discriminate]. econstructor; [cbn [children]; apply in_or_app; right; left; reflexivity|exact O'].
Qed.
Lemma statement_tidy : forall n, statement n = true -> first_only n -> tidy n.
Proof. intros n S F. apply (tidy_semi false). eapply wf_tidy; [exact S|apply first_semi, F]. Qed.
Lemma fragment_neat : forall q n, parse_sql q = Ok n -> statement n = true -> first_only n -> exists t, format_sql q = Ok t /\ neat t.
Proof.
  intros q n P S F. destruct (printed n S) as (t & T & _). exists t. unfold format_sql. rewrite P. cbn [rbind]. split; auto. apply (tidy_neat n); auto. apply statement_tidy; auto.
Qed.
Lemma any_neat : forall q n t, parse_sql q = Ok n -> tidy n -> format_sql q = Ok t -> neat t.
Proof. intros q n t P T H. unfold format_sql in H. rewrite P in H. exact (tidy_neat n t T H). Qed.
(** Checks for concrete statements *)
Fixpoint everywhere (k : nat) (p : node -> bool) (n : node) : bool :=
  match k with 0 => false | S k => p n && forallb (everywhere k p) (children n) end.
Lemma everywhere_occurs : forall k p n, everywhere k p n = true -> forall x, occurs x n -> p x = true.
Proof.
  intros k p n H x O. revert k H. induction O as [|c n I O IH]; intros [|k] H; try discriminate H; cbn [everywhere] in H; apply andb_true_iff in H as [A B]; auto.
  rewrite forallb_forall in B. eapply IH, B, I.
Qed.
Lemma first_check : forall k n, everywhere k (fun x => match x with NParen args => no_sel (tl args) | _ => true end) n = true -> first_only n.
Proof.
  intros k n H args a O I. apply (everywhere_occurs _ _ _ H) in O. unfold no_sel in O. rewrite forallb_forall in O. apply O in I. apply negb_true_iff in I. exact I.
Qed.
Lemma tidy_check : forall k n, everywhere k tidy_node n = true -> tidy n.
Proof. intros k n H x O. exact (everywhere_occurs _ _ _ H x O). Qed.
