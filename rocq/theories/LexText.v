(** Texts put together from pieces, and their tokens. *)
From Verif Require Import PyStr Lib Tokeniser SpecTok ProofTok ProofTok2 ProofTok3 Ast Render Grammar.
Local Open Scope str_scope.
Local Open Scope list_scope.

Lemma inN : forall a b : list N, forallb (fun x => existsb (N.eqb x) b) a = true -> incl a b.
Proof.
  intros a b H x I. rewrite forallb_forall in H. apply H in I. apply existsb_exists in I as (y & Y & E). apply N.eqb_eq in E. subst. auto.
Qed.
(** ** Texts made of quote-free segments and one-line literals *)
Definition brk (c : N) : bool := is_ws c || cut c.
Definition lit_ok (x : N * str * str) : Prop :=
  let '(q, c, a) := x in
  In q [39; 34; 96]%N /\ quote_free c /\ ~ In 10%N c /\ tame c /\ quote_free a /\ tame a.
Definition lexes (s : str) (rs : list str) : Prop :=
  exists a l, s = a ++ flat_lits l /\ quote_free a /\ tame a /\ Forall lit_ok l /\ rs = raw0 a ++ raw_lits l.

Lemma quote_free_app : forall a b, quote_free a -> quote_free b -> quote_free (a ++ b).
Proof. intros a b A B c I. apply in_app_or in I as [I|I]; auto. Qed.
Lemma lit_ok_all : forall l, Forall lit_ok l -> lits_ok l.
Proof.
  intros l H. unfold lits_ok. rewrite Forall_forall in H |- *. intros [[q c] a] I. destruct (H _ I) as (A & B & C & D & E & F).
  repeat split; auto. apply Forall_forall. intros [[q' c'] a'] J Q. destruct (H _ J) as (A' & _). apply (B q' Q A').
Qed.
Lemma tame_quote : forall q, In q [39; 34; 96]%N -> tame [q].
Proof.
  intros q Q a b E. exfalso. destruct a as [|x a]; [injection E as E _; subst; cbn in Q; intuition discriminate|].
  injection E as _ E. destruct a; discriminate.
Qed.
Lemma tame_lits : forall l, Forall lit_ok l -> tame (flat_lits l).
Proof.
  intros l H. induction H as [|[[q c] a] l (A & B & C & D & E & F) H IH]; [apply tame_nil|].
  unfold flat_lits in *. cbn [flat_map]. apply tame_app; auto. repeat (apply tame_app; auto using tame_quote).
Qed.
Lemma lexes_tame : forall s rs, lexes s rs -> tame s.
Proof. intros s rs (a & l & -> & Q & T & L & _). apply tame_app; auto using tame_lits. Qed.
Lemma lexes_raw : forall s rs, lexes s rs -> raw0 s = rs.
Proof.
  intros s rs H. assert (T := lexes_tame s rs H). destruct H as (a & l & -> & Q & Ta & L & ->).
  apply raw_literals; auto using lit_ok_all.
Qed.
Lemma raw0_hd : forall a c b, brk c = true -> tame (a ++ c :: b) -> quote_free (a ++ c :: b) -> tame a -> tame (c :: b) ->
  raw0 (a ++ c :: b) = raw0 a ++ raw0 (c :: b).
Proof.
  intros a c b B T Q Ta Tb. assert (Qa : quote_free a) by (intros x X; apply Q, in_or_app; auto).
  assert (Qb : quote_free (c :: b)) by (intros x X; apply Q, in_or_app; auto).
  rewrite !raw0_items by auto. rewrite items_app by auto. change (c :: b) with ([] ++ c :: b). rewrite (items_app [] c b) by auto.
  rewrite flat_map_app. reflexivity.
Qed.
Lemma raw0_last : forall a c b, brk c = true -> tame ((a ++ [c]) ++ b) -> quote_free ((a ++ [c]) ++ b) -> tame (a ++ [c]) -> tame b ->
  raw0 ((a ++ [c]) ++ b) = raw0 (a ++ [c]) ++ raw0 b.
Proof.
  intros a c b B T Q Ta Tb. assert (Qa : quote_free (a ++ [c])) by (intros x X; apply Q, in_or_app; auto).
  assert (Qb : quote_free b) by (intros x X; apply Q, in_or_app; auto).
  rewrite !raw0_items by auto. rewrite <- app_assoc. cbn [app]. rewrite !items_app by auto. cbn [items]. rewrite app_nil_r, app_assoc, flat_map_app. reflexivity.
Qed.
(** where two texts may meet *)
Definition joint (s1 s2 : str) : Prop :=
  s1 = [] \/ s2 = [] \/ (exists p c, s1 = p ++ [c] /\ brk c = true) \/ (exists p c, s2 = c :: p /\ brk c = true).
Lemma raw0_joint : forall a b, joint a b -> quote_free a -> tame a -> quote_free b -> tame b -> raw0 (a ++ b) = raw0 a ++ raw0 b.
Proof.
  intros a b [->|[->|[(p & c & -> & B)|(p & c & -> & B)]]] Qa Ta Qb Tb.
  - reflexivity.
  - rewrite !app_nil_r. reflexivity.
  - apply raw0_last; auto using tame_app, quote_free_app.
  - apply raw0_hd; auto using tame_app, quote_free_app.
Qed.
Lemma raw_lits_app : forall a b, raw_lits (a ++ b) = raw_lits a ++ raw_lits b.
Proof. intros. unfold raw_lits. apply flat_map_app. Qed.
Lemma flat_lits_app : forall a b, flat_lits (a ++ b) = flat_lits a ++ flat_lits b.
Proof. intros. unfold flat_lits. apply flat_map_app. Qed.
Lemma flat_one : forall q c a, flat_lits [(q, c, a)] = q :: c ++ q :: a.
Proof. intros. cbn. rewrite app_nil_r. reflexivity. Qed.
Lemma raw_one : forall q c a, raw_lits [(q, c, a)] = [q] :: nonempty c ++ [q] :: raw0 a.
Proof. intros. cbn. rewrite app_nil_r. reflexivity. Qed.
(** the last segment of a text can be continued *)
Lemma lexes_seg : forall s1 r1, lexes s1 r1 -> exists pre x a,
  s1 = pre ++ a /\ r1 = x ++ raw0 a /\ quote_free a /\ tame a /\ (pre = [] \/ exists p q, pre = p ++ [q] /\ In q [39; 34; 96]%N) /\
  forall b l2, quote_free (a ++ b) -> tame (a ++ b) -> Forall lit_ok l2 -> lexes (s1 ++ b ++ flat_lits l2) (x ++ raw0 (a ++ b) ++ raw_lits l2).
Proof.
  intros s1 r1 (a & l & -> & Q & T & L & ->). induction l as [|[[q c] a'] l _] using rev_ind.
  - exists [], [], a. cbn [flat_lits raw_lits flat_map]. rewrite !app_nil_r. repeat split; auto. intros b l2 Qb Tb L2.
    exists (a ++ b), l2. rewrite app_assoc. auto.
  - apply Forall_app in L as [L1 L2]. apply Forall_inv in L2. destruct L2 as (A & B & C & D & E & F).
    exists (a ++ flat_lits l ++ q :: c ++ [q]), (raw0 a ++ raw_lits l ++ [q] :: nonempty c ++ [[q]]), a'.
    rewrite flat_lits_app, raw_lits_app, flat_one, raw_one. split; [|split; [|split; [|split; [|split]]]]; auto.
    + rewrite <- !app_assoc. cbn [app]. rewrite <- !app_assoc. reflexivity.
    + rewrite <- !app_assoc. cbn [app]. rewrite <- !app_assoc. reflexivity.
    + right. exists (a ++ flat_lits l ++ q :: c), q. split; auto. rewrite <- !app_assoc. reflexivity.
    + intros b l2 Qb Tb L2. exists a, (l ++ (q, c, a' ++ b) :: l2). split; [|split; [|split; [|split]]]; auto.
      * rewrite flat_lits_app. change ((q, c, a' ++ b) :: l2) with ([(q, c, a' ++ b)] ++ l2). rewrite flat_lits_app, flat_one.
        rewrite <- !app_assoc. cbn [app]. rewrite <- !app_assoc. cbn [app]. rewrite <- !app_assoc. reflexivity.
      * apply Forall_app. split; auto. constructor; auto. cbn. auto 10.
      * rewrite raw_lits_app. change ((q, c, a' ++ b) :: l2) with ([(q, c, a' ++ b)] ++ l2). rewrite raw_lits_app, raw_one.
        rewrite <- !app_assoc. cbn [app]. rewrite <- !app_assoc. cbn [app]. reflexivity.
Qed.
Lemma app_last : forall (p a q : str) c, p ++ a = q ++ [c] -> a = [] \/ exists a', a = a' ++ [c].
Proof.
  intros p a q c E. destruct a as [|x a] using rev_ind; auto. right. exists a. rewrite app_assoc in E. apply app_inj_tail in E as [_ ->]. auto.
Qed.
Lemma lexes_app : forall s1 r1 s2 r2, lexes s1 r1 -> lexes s2 r2 -> joint s1 s2 -> lexes (s1 ++ s2) (r1 ++ r2).
Proof.
  intros s1 r1 s2 r2 H1 (b & l2 & -> & Qb & Tb & L2 & ->) J.
  destruct (lexes_seg s1 r1 H1) as (pre & x & a & E & -> & Qa & Ta & _ & G).
  assert (Jab : joint a b).
  { destruct J as [J|[J|[(p & c & J & B)|(p & c & J & B)]]].
    - rewrite J in E. symmetry in E. apply app_eq_nil in E as [_ ->]. left. auto.
    - apply app_eq_nil in J as [-> _]. right. left. auto.
    - rewrite E in J. apply app_last in J as [->|(a' & ->)]; [left; auto|right; right; left; eauto].
    - destruct b as [|c' b]; [right; left; auto|]. injection J as -> _. right. right. right. eauto. }
  specialize (G b l2 (quote_free_app _ _ Qa Qb) (tame_app _ _ Ta Tb) L2). rewrite raw0_joint in G by auto.
  rewrite <- !app_assoc in G |- *. exact G.
Qed.
Lemma lexes_nil : lexes [] [].
Proof. exists [], []. repeat split; auto using tame_nil. intros c []. Qed.

(** ** Texts without backslashes and quotes *)
Definition plainb (s : str) : bool := forallb (fun c => negb (existsb (N.eqb c) [39; 34; 96; 92]%N)) s.
Lemma plainb_ok : forall s, plainb s = true -> quote_free s /\ tame s.
Proof.
  intros s H. unfold plainb in H. rewrite forallb_forall in H.
  assert (X : forall c, In c s -> ~ In c [39; 34; 96; 92]%N).
  { intros c I. apply H in I. rewrite negb_true_iff in I. intros J. assert (existsb (N.eqb c) [39; 34; 96; 92]%N = true); [|congruence].
    apply existsb_exists. exists c. rewrite N.eqb_refl. auto. }
  split.
  - intros c I J. apply (X c I). cbn in *. tauto.
  - intros a b E. exfalso. apply (X 92%N); [rewrite E; apply in_or_app; right; left; auto|cbn; auto].
Qed.
Lemma lexes_plain : forall s rs, plainb s = true -> raw0 s = rs -> lexes s rs.
Proof.
  intros s rs P <-. destruct (plainb_ok s P). exists s, []. cbn [flat_lits raw_lits flat_map]. rewrite !app_nil_r. auto.
Qed.
(** a word *)
Lemma word_chars : forall w c, forallb word_char w = true -> In c w ->
  ~ In c [39; 34; 96; 32; 10; 9; 44; 59; 40; 41; 91; 93; 43; 45; 42; 47; 61; 60; 62; 46; 92; 124; 33]%N.
Proof.
  intros w c H I J. rewrite forallb_forall in H. apply H in I. unfold word_char in I. apply negb_true_iff in I.
  assert (X : existsb (N.eqb c) [39; 34; 96; 32; 10; 9; 44; 59; 40; 41; 91; 93; 43; 45; 42; 47; 61; 60; 62; 46; 92; 124; 33]%N = true); [|congruence].
  apply existsb_exists. exists c. split; auto. apply N.eqb_refl.
Qed.
Lemma word_plainb : forall w, forallb word_char w = true -> plainb w = true.
Proof.
  intros w H. apply forallb_forall. intros c I. apply negb_true_iff. destruct (existsb (N.eqb c) _) eqn:X; auto. exfalso.
  apply existsb_exists in X as (y & Y & E). apply N.eqb_eq in E. subst y. apply (word_chars w c H I). revert X || revert J || revert Y; apply inN; reflexivity.
Qed.
Lemma word_nobrk : forall w c, forallb word_char w = true -> In c w -> is_ws c = false /\ is_kept c = false.
Proof.
  intros w c H I. assert (X := word_chars w c H I). split.
  - destruct (is_ws c) eqn:Y; auto. apply is_ws_In in Y. exfalso. apply X. revert Y. apply inN. reflexivity.
  - destruct (is_kept c) eqn:Y; auto. apply is_kept_In in Y. exfalso. apply X. revert Y. apply inN. reflexivity.
Qed.
Lemma word_raw : forall w, word w = true -> raw0 w = [w].
Proof.
  intros w H. unfold word in H. apply andb_true_iff in H as [N H]. destruct (plainb_ok w (word_plainb w H)) as [Q T].
  assert (NE : w <> []) by (intros ->; discriminate N).
  rewrite raw0_items by auto. rewrite items_plain; auto.
  - cbn [flat_map]. rewrite app_nil_r. apply no_kept_chunk; auto. intros k K I. apply (word_nobrk w k H) in I as [_ X].
    apply is_kept_In in K. congruence.
  - intros c I. destruct (word_nobrk w c H I) as [A B]. unfold cut. rewrite A, B. auto.
Qed.
Lemma lexes_word : forall w, word w = true -> lexes w [w].
Proof.
  intros w H. apply lexes_plain; [|apply word_raw; auto]. unfold word in H. apply andb_true_iff in H as [_ H]. apply word_plainb. auto.
Qed.
(** a literal *)
Lemma lexes_lit : forall q v, In q QUOTES -> content v = true -> lexes (q ++ v ++ q) (q :: nonempty v ++ [q]).
Proof.
  intros q v Q C. assert (exists c, q = [c] /\ In c [39; 34; 96]%N) as (c & -> & I).
  { cbn in Q. destruct Q as [<-|[<-|[<-|[]]]]; eexists; (split; [reflexivity|]); cbn; auto. }
  exists [], [(c, v, [])]. unfold content in C. apply andb_true_iff in C as [C _]. apply andb_true_iff in C as [C1 C2].
  rewrite forallb_forall in C1.
  assert (X : forall x, In x v -> ~ In x [39; 34; 96; 10]%N).
  { intros x J K. apply C1 in J. apply negb_true_iff in J. assert (existsb (N.eqb x) [39; 34; 96; 10]%N = true); [|congruence].
    apply existsb_exists. exists x. split; auto. apply N.eqb_refl. }
  split; [rewrite flat_one; reflexivity|]. split; [intros ? []|]. split; [apply tame_nil|]. split; [|rewrite raw_one; reflexivity].
  constructor; auto. cbn. repeat split; auto.
  - intros x J K. apply (X x J). cbn in *. tauto.
  - intros J. apply (X _ J). cbn. auto.
  - clear C1 X. revert C2. induction v as [|x v IH]; intros C2; [apply tame_nil|]. cbn [tameb] in C2. apply andb_true_iff in C2 as [A B]. specialize (IH B).
    intros a b E. destruct a as [|y a].
    + injection E as -> ->. rewrite N.eqb_refl in A. destruct b as [|d b]; [discriminate|]. exists d, b. split; auto.
      apply negb_true_iff in A. assert (K : ~ In d [39; 34; 96; 32; 10; 9; 44; 59; 40; 41; 91; 93; 43; 45; 42; 47; 61; 60; 62; 46]%N).
      { intros K. assert (existsb (N.eqb d) [39; 34; 96; 32; 10; 9; 44; 59; 40; 41; 91; 93; 43; 45; 42; 47; 61; 60; 62; 46]%N = true); [|congruence].
        apply existsb_exists. exists d. split; auto. apply N.eqb_refl. }
      repeat split.
      * intros Z. apply K. revert Z. apply inN. reflexivity.
      * intros Z. apply K. apply blank_ws in Z. revert Z. apply inN. reflexivity.
      * intros Z. apply K. apply kept_separator in Z. revert Z. apply inN. reflexivity.
    + injection E as -> ->. apply (IH a b). auto.
  - intros ? [].
  - apply tame_nil.
Qed.

(** ** Indenting *)
Definition ind (k : nat) (s : str) : str := replace_c 10 (10 :: repeat 32 k)%N s.
Lemma indent_ind : forall s, indent s = ind 1 s.
Proof. reflexivity. Qed.
Lemma indent2_ind : forall s, indent2 s = ind 2 s.
Proof. reflexivity. Qed.
Lemma ind_cons : forall k c s, ind k (c :: s) = (if N.eqb c 10 then 10 :: repeat 32 k else [c])%N ++ ind k s.
Proof. reflexivity. Qed.
Lemma ind_app : forall k a b, ind k (a ++ b) = ind k a ++ ind k b.
Proof. intros. apply flat_map_app. Qed.
Lemma ind_none : forall k s, ~ In 10%N s -> ind k s = s.
Proof.
  induction s as [|c s IH]; intros H; auto. rewrite ind_cons. destruct (N.eqb_spec c 10); [exfalso; apply H; left; auto|].
  rewrite IH; auto. intros X. apply H. right. auto.
Qed.
Lemma In_ind : forall k s c, In c (ind k s) -> In c s \/ c = 32%N.
Proof.
  induction s as [|x s IH]; intros c H; [destruct H|]. rewrite ind_cons in H. apply in_app_or in H as [H|H].
  - destruct (N.eqb_spec x 10).
    + destruct H as [<-|H]; [subst; left; left; auto|]. apply repeat_spec in H. auto.
    + destruct H as [<-|[]]. left. left. auto.
  - apply IH in H as [H|H]; auto. left. right. auto.
Qed.
Lemma ind_quote_free : forall k s, quote_free s -> quote_free (ind k s).
Proof. intros k s H c I. apply In_ind in I as [I|I]; [apply H; auto|]. subst. cbn. intuition discriminate. Qed.
Lemma spaces_tame : forall k, tame (10 :: repeat 32 k)%N.
Proof.
  intros k a b E. exfalso. assert (I : In 92%N (10 :: repeat 32 k)%N) by (rewrite E; apply in_or_app; right; left; auto).
  destruct I as [I|I]; [discriminate|]. apply repeat_spec in I. discriminate.
Qed.
Lemma tame_tl : forall c s, tame (c :: s) -> tame s.
Proof. intros c s H a b E. apply (H (c :: a) b). rewrite E. auto. Qed.
Lemma ind_tame : forall k s, tame s -> tame (ind k s).
Proof.
  induction s as [|c s IH]; intros H; [apply tame_nil|]. rewrite ind_cons. specialize (IH (tame_tl _ _ H)). destruct (N.eqb_spec c 10).
  - apply tame_app; auto using spaces_tame.
  - intros a b E. destruct a as [|y a].
    + cbn in E. injection E as -> <-. destruct (H [] s eq_refl) as (d & r & -> & A & B & C). rewrite ind_cons.
      destruct (N.eqb_spec d 10); [exfalso; apply B; subst; right; left; auto|]. exists d, (ind k r). auto.
    + cbn in E. injection E as -> E. apply (IH a b E).
Qed.
Lemma ind_items : forall k s, items (ind k s) = items s.
Proof.
  induction s as [|c s IH]; auto. rewrite ind_cons. destruct (N.eqb_spec c 10).
  - subst. cbn [app]. rewrite !items_cons. change (is_ws 10) with true. cbv iota. rewrite blanks_items; auto.
    intros x X. apply repeat_spec in X. left. auto.
  - cbn [app]. rewrite !items_cons. rewrite IH. destruct s as [|d s]; auto. rewrite ind_cons. destruct (N.eqb_spec d 10); [subst; reflexivity|].
    cbn [app]. reflexivity.
Qed.
Lemma ind_raw : forall k s, quote_free s -> tame s -> raw0 (ind k s) = raw0 s.
Proof. intros. rewrite !raw0_items; auto using ind_quote_free, ind_tame. rewrite ind_items. auto. Qed.
Lemma lexes_ind : forall k s rs, lexes s rs -> lexes (ind k s) rs.
Proof.
  intros k s rs (a & l & -> & Q & T & L & ->). exists (ind k a), (map (fun x => let '(q, c, b) := x in (q, c, ind k b)) l).
  repeat split; auto using ind_quote_free, ind_tame.
  - rewrite ind_app. f_equal. induction L as [|[[q c] b] l (A & B & C & D & E & F) L IH]; auto.
    unfold flat_lits in *. cbn [flat_map map]. rewrite !ind_app, IH.
    assert (NQ : ind k [q] = [q]) by (apply ind_none; intros [X|[]]; subst; cbn in A; intuition discriminate).
    rewrite NQ, (ind_none k c) by auto. reflexivity.
  - apply Forall_map. eapply Forall_impl; [|exact L]. intros [[q c] b] (A & B & C & D & E & F). cbn. auto 10 using ind_quote_free, ind_tame.
  - rewrite ind_raw by auto. f_equal. induction L as [|[[q c] b] l (A & B & C & D & E & F) L IH]; auto.
    unfold raw_lits in *. cbn [flat_map map]. rewrite ind_raw, IH by auto. auto.
Qed.

(** ** Merging *)
Definition M (rs ts : list str) : Prop :=
  merged rs = ts /\ (rs = [] \/ (exists t r, rs = t :: r /\ inert t) /\ (exists t r, rs = r ++ [t] /\ inert t)).
Lemma merged_nil : merged [] = [].
Proof. reflexivity. Qed.
Lemma merged_inert : forall t r, inert t -> merged (t :: r) = t :: merged r.
Proof. intros t r H. exact (merged_app [] t r H). Qed.
Lemma M_nil : M [] [].
Proof. split; auto. Qed.
Lemma M_app : forall r1 t1 r2 t2, M r1 t1 -> M r2 t2 -> M (r1 ++ r2) (t1 ++ t2).
Proof.
  intros r1 t1 r2 t2 [<- F1] [<- F2]. destruct F1 as [->|[(f1 & p1 & A1 & B1) (g1 & q1 & C1 & D1)]]; [split; auto|].
  destruct F2 as [->|[(f2 & p2 & A2 & B2) (g2 & q2 & C2 & D2)]].
  { rewrite !app_nil_r. split; auto. right. split; eauto 6. }
  split.
  - rewrite A2. rewrite merged_app, merged_inert; auto.
  - right. split; [exists f1, (p1 ++ r2); rewrite A1; auto|exists g2, (r1 ++ q2)]. rewrite C2, app_assoc. auto.
Qed.
Lemma M_inert : forall l, Forall inert l -> M l l.
Proof.
  intros l H. induction H as [|t l I H IH]; [apply M_nil|]. apply (M_app [t] [t] l l); auto. split; [apply merged_inert; auto|].
  right. split; [exists t, []; auto|exists t, []; auto].
Qed.
Lemma M_mid : forall r1 t1 x r2 t2, M r1 t1 -> M r2 t2 -> r1 <> [] -> r2 <> [] -> M (r1 ++ x ++ r2) (t1 ++ merged x ++ t2).
Proof.
  intros r1 t1 x r2 t2 [<- F1] [<- F2] N1 N2. destruct F1 as [->|[(f1 & p1 & A1 & B1) (g1 & q1 & C1 & D1)]]; [congruence|].
  destruct F2 as [->|[(f2 & p2 & A2 & B2) (g2 & q2 & C2 & D2)]]; [congruence|]. split.
  - rewrite C1 at 1. rewrite <- app_assoc. cbn [app]. rewrite merged_app by auto. rewrite C1, merged_app by auto. rewrite <- app_assoc. cbn [app merged]. f_equal. f_equal.
    rewrite A2. rewrite merged_app, merged_inert by auto. reflexivity.
  - right. split; [exists f1, (p1 ++ x ++ r2); rewrite A1; auto|exists g2, (r1 ++ x ++ q2)]. rewrite C2, !app_assoc. auto.
Qed.
Lemma M_lit : forall q v, In q QUOTES -> M (q :: nonempty v ++ [q]) (q :: nonempty v ++ [q]).
Proof.
  intros q v Q. assert (I : inert q) by (cbn in Q; destruct Q as [<-|[<-|[<-|[]]]]; apply inert_quote; cbn; auto). split.
  - rewrite merged_inert, merged_app by auto. rewrite merged_nonempty. reflexivity.
  - right. split; [eauto|]. exists q, (q :: nonempty v). auto.
Qed.

(** ** Texts and their tokens *)
Definition T (s : str) (ts : list str) : Prop := exists rs, lexes s rs /\ M rs ts.
Lemma T_tokens : forall s ts, T s ts -> s <> [] -> to_tokens s = (ts, None).
Proof.
  intros s ts (rs & L & [<- _]) NE. rewrite to_tokens_eq by (eapply lexes_tame; eauto). f_equal. f_equal.
  apply lexes_raw in L. rewrite <- L. symmetry. apply raw0_ne. auto.
Qed.
Lemma T_nil : T [] [].
Proof. exists []. split; [apply lexes_nil|apply M_nil]. Qed.
Lemma T_app : forall s1 t1 s2 t2, T s1 t1 -> T s2 t2 -> joint s1 s2 -> T (s1 ++ s2) (t1 ++ t2).
Proof. intros s1 t1 s2 t2 (r1 & L1 & M1) (r2 & L2 & M2) J. exists (r1 ++ r2). split; auto using lexes_app, M_app. Qed.
Lemma T_ind : forall k s ts, T s ts -> T (ind k s) ts.
Proof. intros k s ts (rs & L & Mr). exists rs. split; auto using lexes_ind. Qed.
Lemma T_indent : forall s ts, T s ts -> T (indent s) ts.
Proof. intros s ts H. rewrite indent_ind. apply T_ind. auto. Qed.
Lemma T_indent2 : forall s ts, T s ts -> T (indent2 s) ts.
Proof. intros s ts H. rewrite indent2_ind. apply T_ind. auto. Qed.
Definition inertb (t : str) : bool := negb (str_eqb t []) && forallb (fun c => negb (existsb (N.eqb c) [60; 62; 61; 124; 33]%N)) t.
Lemma inertb_ok : forall t, inertb t = true -> inert t.
Proof.
  intros t H. unfold inertb in H. apply andb_true_iff in H as [N H]. apply no_operator_inert. split; [intros ->; discriminate N|].
  intros c I J. rewrite forallb_forall in H. apply H in I. apply negb_true_iff in I.
  assert (existsb (N.eqb c) [60; 62; 61; 124; 33]%N = true); [|congruence]. apply existsb_exists. exists c. split; auto. apply N.eqb_refl.
Qed.
(** fixed texts *)
Lemma T_fix : forall g ts, plainb g = true -> raw0 g = ts -> forallb inertb ts = true -> T g ts.
Proof.
  intros g ts P E I. exists ts. split; [apply lexes_plain; auto|]. apply M_inert. apply Forall_forall. intros t J. apply inertb_ok.
  rewrite forallb_forall in I. auto.
Qed.
Lemma word_inert : forall w, word w = true -> inert w.
Proof.
  intros w H. unfold word in H. apply andb_true_iff in H as [N H]. apply no_operator_inert. split; [intros ->; discriminate N|].
  intros c I J. apply (word_chars w c H I). revert X || revert J || revert Y; apply inN; reflexivity.
Qed.
Lemma T_word : forall w, word w = true -> T w [w].
Proof. intros w H. exists [w]. split; [apply lexes_word; auto|]. apply M_inert. constructor; auto using word_inert. Qed.
Lemma T_lit : forall q v, In q QUOTES -> content v = true -> T (q ++ v ++ q) (q :: nonempty v ++ [q]).
Proof. intros q v Q C. eexists. split; [apply lexes_lit; auto|apply M_lit; auto]. Qed.
Lemma T_nonnil : forall s ts, T s ts -> ts <> [] -> exists rs, lexes s rs /\ M rs ts /\ rs <> [].
Proof. intros s ts (rs & L & Mr) N. exists rs. repeat split; auto; try apply Mr. intros ->. destruct Mr as [<- _]. apply N. reflexivity. Qed.
(** operators *)
Definition hdb (s : str) : bool := match s with c :: _ => brk c | [] => true end.
Fixpoint lastb (s : str) : bool := match s with [] => true | [c] => brk c | _ :: r => lastb r end.
Lemma joint_r : forall a b, hdb b = true -> joint a b.
Proof. intros a [|c b] H; [right; left; auto|]. right. right. right. exists b, c. auto. Qed.
Lemma joint_l : forall a b, lastb a = true -> joint a b.
Proof.
  intros a b H. destruct a as [|c a] using rev_ind; [left; auto|]. right. right. left. exists a, c. split; auto. clear IHa.
  induction a as [|d a IH]; auto. cbn [app] in H. destruct (a ++ [c]) eqn:E; [destruct a; discriminate|]. cbn [lastb] in H. apply IH. exact H.
Qed.
Lemma T_mid : forall s1 t1 g x op s2 t2, T s1 t1 -> T s2 t2 -> t1 <> [] -> t2 <> [] -> plainb g = true -> raw0 g = x -> merged x = [op] ->
  hdb g = true -> lastb g = true -> T (s1 ++ g ++ s2) (t1 ++ op :: t2).
Proof.
  intros s1 t1 g x op s2 t2 T1 T2 N1 N2 P E Mo H L. destruct (T_nonnil _ _ T1 N1) as (r1 & L1 & M1 & R1). destruct (T_nonnil _ _ T2 N2) as (r2 & L2 & M2 & R2).
  exists (r1 ++ x ++ r2). split.
  - apply lexes_app; auto.
    + apply lexes_app; auto using lexes_plain, joint_l.
    + apply joint_r. destruct g as [|c g]; [|exact H]. rewrite <- E in Mo. discriminate Mo.
  - change (op :: t2) with ([op] ++ t2). rewrite <- Mo. apply M_mid; auto.
Qed.
Lemma T_op : forall s1 t1 op s2 t2, T s1 t1 -> T s2 t2 -> t1 <> [] -> t2 <> [] ->
  In op ["="; ">"; "<"; "<="; ">="; "!="; "<>"; "<<"; ">>"; "&"; "^"; "#"; "|"; "||"; "+"; "-"; "*"; "/"] ->
  T (s1 ++ " " ++ op ++ " " ++ s2) (t1 ++ op :: t2).
Proof.
  intros s1 t1 op s2 t2 T1 T2 N1 N2 I. replace (" " ++ op ++ " " ++ s2) with ((" " ++ op ++ " ") ++ s2) by (rewrite <- !app_assoc; reflexivity).
  assert (X : plainb (" " ++ op ++ " ") = true /\ merged (raw0 (" " ++ op ++ " ")) = [op] /\ hdb (" " ++ op ++ " ") = true /\ lastb (" " ++ op ++ " ") = true).
  { cbn in I. repeat (destruct I as [<-|I]; [vm_compute; auto|]). contradiction. }
  destruct X as (A & B & C & D). eapply T_mid; eauto.
Qed.
(** lists *)
Fixpoint joint_toks (g : list str) (l : list (list str)) : list str :=
  match l with [] => [] | [x] => x | x :: r => x ++ g ++ joint_toks g r end.
Lemma T_join : forall g gt ss tss, Forall2 T ss tss -> T g gt -> hdb g = true -> lastb g = true -> g <> [] -> T (join g ss) (joint_toks gt tss).
Proof.
  intros g gt ss tss F G H L NE. induction F as [|s t ss tss A F IH]; [apply T_nil|].
  destruct F as [|s' t' ss tss A' F]; [exact A|].
  change (join g (s :: s' :: ss)) with (s ++ g ++ join g (s' :: ss)). change (joint_toks gt (t :: t' :: tss)) with (t ++ gt ++ joint_toks gt (t' :: tss)).
  apply T_app; auto.
  - apply T_app; auto using joint_l.
  - apply joint_r. destruct g; [congruence|exact H].
Qed.

(** ** Dots *)
Definition solid (c : N) : bool := negb (brk c) && negb (existsb (N.eqb c) [39; 34; 96]%N).
Definition named (w : str) : Prop := exists c, In c w /\ is_digit_c c = false /\ c <> 46%N.
Definition dotl (s : str) : Prop :=
  (exists p c, s = p ++ [c] /\ solid c = false) \/ (exists p w, s = p ++ w /\ forallb solid w = true /\ named w).
Definition dotr (s : str) : Prop :=
  (exists p c, s = c :: p /\ solid c = false) \/ (exists p w, s = w ++ p /\ forallb solid w = true /\ named w).
Lemma tail_split : forall a, exists p i, a = p ++ i /\ (p = [] \/ exists p' c, p = p' ++ [c] /\ brk c = true) /\ (forall c, In c i -> brk c = false).
Proof.
  induction a as [|c a IH] using rev_ind.
  - exists [], []. repeat split; auto. intros c [].
  - destruct (brk c) eqn:B.
    + exists (a ++ [c]), []. rewrite app_nil_r. repeat split; eauto 6. intros x [].
    + destruct IH as (p & i & -> & P & I). exists p, (i ++ [c]). rewrite app_assoc. repeat split; auto.
      intros x X. apply in_app_or in X as [X|[<-|[]]]; auto.
Qed.
Lemma head_split : forall a, exists i p, a = i ++ p /\ (p = [] \/ exists p' c, p = c :: p' /\ brk c = true) /\ (forall c, In c i -> brk c = false).
Proof.
  induction a as [|c a IH].
  - exists [], []. repeat split; auto. intros c [].
  - destruct (brk c) eqn:B.
    + exists [], (c :: a). repeat split; eauto 6. intros x [].
    + destruct IH as (i & p & -> & P & I). exists (c :: i), p. repeat split; auto. intros x [<-|X]; auto.
Qed.
Lemma named_text : forall i, named i -> is_number_text i = false.
Proof.
  intros i (c & I & D & ND). unfold is_number_text. apply andb_false_iff. right. unfold isdigit, no_dots.
  assert (J : In c (replace_c 46 [] i)). { unfold replace_c. apply in_flat_map. exists c. split; auto. destruct (N.eqb_spec c 46); [congruence|]. left. auto. }
  destruct (replace_c 46 [] i) as [|y l] eqn:E; [reflexivity|]. rewrite <- E in *.
  destruct (forallb is_digit_c (replace_c 46 [] i)) eqn:F; [|rewrite ?E in *; destruct (y :: l); auto].
  rewrite forallb_forall in F. apply F in J. congruence.
Qed.
Lemma split_dot : forall i j, split 46 (i ++ 46%N :: j) = split 46 i ++ split 46 j.
Proof.
  induction i as [|c i IH]; intros j; [reflexivity|]. cbn [app split]. rewrite IH. destruct (N.eqb c 46); [reflexivity|].
  destruct (split 46 i) eqn:E; [exfalso; apply (split_nonnil 46 i E)|]. reflexivity.
Qed.
Lemma interleave_app : forall k a b, a <> [] -> b <> [] -> interleave k (a ++ b) = interleave k a ++ [k] :: interleave k b.
Proof.
  intros k a b NA NB. induction a as [|w a IH]; [congruence|]. destruct a as [|v a].
  - cbn [app]. rewrite interleave_cons by auto. reflexivity.
  - change ((w :: v :: a) ++ b) with (w :: (v :: a) ++ b). rewrite (interleave_cons k w ((v :: a) ++ b)), (interleave_cons k w (v :: a)) by discriminate. rewrite IH by discriminate. rewrite <- app_assoc. reflexivity.
Qed.
Lemma chunk_eq : forall i, is_number_text i = false -> chunk i = interleave 46 (split 46 i).
Proof.
  intros i H. unfold chunk. destruct i as [|c [|d i]]; [rewrite H; reflexivity| |rewrite H; reflexivity].
  cbn [split]. destruct (N.eqb_spec c 46); [subst|]; reflexivity.
Qed.
Lemma dot_items : forall i j, (forall c, In c i -> brk c = false) -> (forall c, In c j -> brk c = false) -> quote_free i -> quote_free j -> tame i -> tame j ->
  (i = [] \/ named i) -> (j = [] \/ named j) -> raw0 (i ++ "." ++ j) = raw0 i ++ ["."] ++ raw0 j.
Proof.
  intros i j Bi Bj Qi Qj Ti Tj Ni Nj.
  assert (R : forall i, (forall c, In c i -> brk c = false) -> quote_free i -> tame i -> (i = [] \/ named i) -> raw0 i = interleave 46 (split 46 i)).
  { clear. intros i B Q T [->|N]; [reflexivity|]. rewrite raw0_items by auto. rewrite items_plain.
    - cbn [flat_map]. rewrite app_nil_r. apply chunk_eq, named_text, N.
    - destruct N as (c & I & _). intros ->. destruct I.
    - intros c I. apply B in I. unfold brk in I. apply orb_false_iff in I. auto. }
  assert (PD : quote_free "." /\ tame ".") by (apply plainb_ok; reflexivity). destruct PD.
  assert (BW : forall c, In c (i ++ "." ++ j) -> brk c = false) by (intros c I; apply in_app_or in I as [I|I]; auto; destruct I as [<-|I]; auto).
  rewrite raw0_items by auto using quote_free_app, tame_app. rewrite items_plain.
  - cbn [flat_map]. rewrite app_nil_r. rewrite (R i), (R j) by auto. rewrite chunk_eq.
    + cbn [app]. rewrite split_dot, interleave_app by apply split_nonnil. reflexivity.
    + destruct Ni as [->|(c & I & X)]; [destruct Nj as [->|(c & I & X)]; [reflexivity|]|].
      * apply named_text. exists c. split; auto. right. auto.
      * apply named_text. exists c. split; auto. apply in_or_app. auto.
  - destruct i; discriminate.
  - intros c I. apply BW in I. unfold brk in I. apply orb_false_iff in I. auto.
Qed.
Lemma solid_false : forall c, solid c = false -> brk c = true \/ In c [39; 34; 96]%N.
Proof.
  intros c H. unfold solid in H. apply andb_false_iff in H as [H|H]; apply negb_false_iff in H; auto. right.
  apply existsb_exists in H as (y & Y & E). apply N.eqb_eq in E. subst. auto.
Qed.
Lemma solid_true : forall c, solid c = true -> brk c = false /\ ~ In c [39; 34; 96]%N.
Proof.
  intros c H. unfold solid in H. apply andb_true_iff in H as [A B]. apply negb_true_iff in A, B. split; auto. intros X.
  assert (existsb (N.eqb c) [39; 34; 96]%N = true); [|congruence]. apply existsb_exists. exists c. split; auto. apply N.eqb_refl.
Qed.
Lemma named_incl : forall a b, named a -> incl a b -> named b.
Proof. intros a b (c & I & X) J. exists c. auto. Qed.
Lemma dotl_tail : forall P i, dotl (P ++ i) -> quote_free i -> (forall c, In c i -> brk c = false) ->
  (P = [] \/ exists p c, P = p ++ [c] /\ solid c = false) -> i = [] \/ named i.
Proof.
  intros P i [(p & c & E & S)|(p & w & E & W & N)] Q B HP.
  - apply app_last in E as [->|(i' & ->)]; auto. exfalso. assert (I : In c (i' ++ [c])) by (apply in_or_app; right; left; auto).
    apply solid_false in S as [S|S]; [rewrite (B c I) in S; discriminate|apply (Q c I S)].
  - right. apply app_eq_app in E as (l & [[E1 E2]|[E1 E2]]).
    + destruct l as [|x l] using rev_ind.
      { cbn in E2. subst. exact N. }
      exfalso. clear IHl. destruct HP as [->|(p' & c & -> & S)]; [destruct p; [destruct l|]; discriminate|].
      rewrite app_assoc in E1. apply app_inj_tail in E1 as [_ <-]. rewrite forallb_forall in W.
      assert (Y : solid c = true) by (apply W; rewrite E2; apply in_or_app; left; apply in_or_app; right; left; auto). congruence.
    + eapply named_incl; [exact N|]. rewrite E2. intros x X. apply in_or_app. auto.
Qed.
Lemma dotr_head : forall P i, dotr (i ++ P) -> quote_free i -> (forall c, In c i -> brk c = false) ->
  (P = [] \/ exists p c, P = c :: p /\ solid c = false) -> i = [] \/ named i.
Proof.
  intros P i [(p & c & E & S)|(p & w & E & W & N)] Q B HP.
  - destruct i as [|d i]; auto. exfalso. injection E as -> _. assert (I : In c (c :: i)) by (left; auto).
    apply solid_false in S as [S|S]; [rewrite (B c I) in S; discriminate|apply (Q c I S)].
  - right. apply app_eq_app in E as (l & [[E1 E2]|[E1 E2]]).
    + eapply named_incl; [exact N|]. rewrite E1. intros x X. apply in_or_app. auto.
    + destruct l as [|x l].
      { rewrite app_nil_r in E1. subst. exact N. }
      exfalso. destruct HP as [->|(p' & c & -> & S)]; [discriminate|]. injection E2 as -> _.
      rewrite forallb_forall in W. assert (Y : solid x = true) by (apply W; rewrite E1; apply in_or_app; right; left; auto). congruence.
Qed.
Lemma brk_not_solid : forall c, brk c = true -> solid c = false.
Proof. intros c H. unfold solid. rewrite H. reflexivity. Qed.
Lemma quote_not_solid : forall c, In c [39; 34; 96]%N -> solid c = false.
Proof. intros c H. cbn in H. destruct H as [<-|[<-|[<-|[]]]]; reflexivity. Qed.
Lemma tame_suffix : forall a b, tame (a ++ b) -> tame b.
Proof. induction a as [|c a IH]; intros b H; auto. apply IH. eapply tame_tl; exact H. Qed.
Lemma tame_prefix : forall a c b, tame (a ++ c :: b) -> brk c = true -> tame a.
Proof.
  intros a c b H B x y E. destruct (H x (y ++ c :: b)) as (d & z & A & D).
  { rewrite E, <- app_assoc. reflexivity. }
  destruct y as [|e y]; [exfalso|exists e, y; injection A as -> _; auto]. injection A as -> _.
  destruct D as (D1 & D2 & D3). unfold brk in B. apply orb_true_iff in B as [B|B].
  - apply D2. apply blank_ws. apply is_ws_In. auto.
  - apply D3. apply kept_separator. apply cut_true in B. tauto.
Qed.
Lemma lexes_dot : forall s1 r1 s2 r2, lexes s1 r1 -> lexes s2 r2 -> dotl s1 -> dotr s2 -> lexes (s1 ++ "." ++ s2) (r1 ++ ["."] ++ r2).
Proof.
  intros s1 r1 s2 r2 H1 (b & l2 & -> & Qb & Tb & L2 & ->) D1 D2.
  destruct (lexes_seg s1 r1 H1) as (pre & x & a & E & -> & Qa & Ta & P & G).
  destruct (tail_split a) as (a0 & i & -> & A0 & I). destruct (head_split b) as (j & b0 & -> & B0 & J).
  assert (PD : quote_free "." /\ tame ".") by (apply plainb_ok; reflexivity). destruct PD as [QD TD].
  assert (Qi : quote_free i) by (intros c C; apply Qa, in_or_app; auto). assert (Qj : quote_free j) by (intros c C; apply Qb, in_or_app; auto).
  assert (Qa0 : quote_free a0) by (intros c C; apply Qa, in_or_app; auto). assert (Qb0 : quote_free b0) by (intros c C; apply Qb, in_or_app; auto).
  assert (Ti : tame i) by (eapply tame_suffix; eauto). assert (Tb0 : tame b0) by (eapply tame_suffix; eauto).
  assert (Ta0 : tame a0).
  { clear - A0 Ta. destruct A0 as [->|(p & c & -> & B)]; [apply tame_nil|]. rewrite <- app_assoc in Ta. apply tame_prefix in Ta; auto.
    apply tame_app; auto. apply plainb_ok. unfold plainb. cbn [forallb]. rewrite andb_true_r. apply negb_true_iff. destruct (existsb _ _) eqn:X; auto.
    apply existsb_exists in X as (y & Y & Z). apply N.eqb_eq in Z. subst y. exfalso. cbn in Y. destruct Y as [<-|[<-|[<-|[<-|[]]]]]; discriminate B. }
  assert (Tj : tame j) by (destruct B0 as [->|(p & c & -> & B)]; [rewrite app_nil_r in Tb; auto|eapply tame_prefix; eauto]).
  assert (Ni : i = [] \/ named i).
  { apply (dotl_tail (pre ++ a0) i); auto; [rewrite <- app_assoc, <- E; auto|]. destruct A0 as [->|(p & c & -> & B)].
    - rewrite app_nil_r. destruct P as [->|(p & q & -> & Q)]; auto. right. exists p, q. auto using quote_not_solid.
    - right. exists (pre ++ p), c. rewrite app_assoc. auto using brk_not_solid. }
  assert (Nj : j = [] \/ named j).
  { apply (dotr_head (b0 ++ flat_lits l2) j); auto; [rewrite app_assoc; auto|]. destruct B0 as [->|(p & c & -> & B)].
    - cbn [app]. destruct l2 as [|[[q c] a'] l2]; auto. apply Forall_inv in L2. right. cbn. eexists. exists q. split; [reflexivity|].
      apply quote_not_solid. apply L2.
    - right. cbn [app]. eexists. exists c. split; [reflexivity|]. apply brk_not_solid. auto. }
  assert (J1 : forall z, joint a0 z) by (intros z; destruct A0 as [->|(p & c & -> & B)]; [left; auto|right; right; left; eauto]).
  assert (J2 : forall z, joint z b0) by (intros z; destruct B0 as [->|(p & c & -> & B)]; [right; left; auto|right; right; right; eauto]).
  specialize (G ("." ++ j ++ b0) l2). rewrite (raw0_joint j b0) by auto. 
  assert (X : raw0 ((a0 ++ i) ++ "." ++ j ++ b0) = raw0 (a0 ++ i) ++ ["."] ++ raw0 j ++ raw0 b0).
  { rewrite (raw0_joint a0 i) by auto. replace ((a0 ++ i) ++ "." ++ j ++ b0) with (a0 ++ (i ++ "." ++ j) ++ b0) by (rewrite <- !app_assoc; reflexivity).
    rewrite raw0_joint by auto using quote_free_app, tame_app. rewrite raw0_joint by auto using quote_free_app, tame_app.
    rewrite dot_items by auto. rewrite <- !app_assoc. reflexivity. }
  assert (G' : lexes (s1 ++ ("." ++ j ++ b0) ++ flat_lits l2) (x ++ raw0 ((a0 ++ i) ++ "." ++ j ++ b0) ++ raw_lits l2))
    by (apply G; auto 10 using quote_free_app, tame_app).
  clear G. rewrite X in G'. repeat (rewrite <- ?app_assoc in *; cbn [app] in *). exact G'.
Qed.
Lemma T_dot : forall s1 t1 s2 t2, T s1 t1 -> T s2 t2 -> dotl s1 -> dotr s2 -> T (s1 ++ "." ++ s2) (t1 ++ "." :: t2).
Proof.
  intros s1 t1 s2 t2 (r1 & L1 & M1) (r2 & L2 & M2) D1 D2. exists (r1 ++ ["."] ++ r2). split; [apply lexes_dot; auto|].
  change ("." :: t2) with (["."] ++ t2). repeat apply M_app; auto. apply M_inert. constructor; auto. apply inertb_ok. reflexivity.
Qed.
