(** The formatted text of tidy statements is neat: the lines are run through a small automaton. *)
From Verif Require Import PyStr Lib AstLib Ast Grammar Digits Render RenderEq SpecLayout SpecTidy ProofTok GramTok GramNest.
Local Open Scope str_scope.
Local Open Scope list_scope.

(** State: what the character before is *)
Inductive state := B | L | O.
Definition step (s : state) (c : N) : option state :=
  if N.eqb c 10 then match s with O => Some L | _ => None end else if blank_c c then Some B else Some O.
Fixpoint run (s : state) (t : str) : option state :=
  match t with [] => Some s | c :: t => match step s c with Some s => run s t | None => None end end.
Lemma run_app : forall a b s, run s (a ++ b) = match run s a with Some s => run s b | None => None end.
Proof. induction a as [|c a IH]; intros b s; auto. cbn [app run]. destruct (step s c); auto. Qed.
Lemma run_seq : forall a b s s', run s a = Some s' -> run s (a ++ b) = run s' b.
Proof. intros a b s s' H. rewrite run_app, H. reflexivity. Qed.
Definition body (t : str) : Prop := forall s, run s t = Some O.
Definition tail (t : str) : Prop := run O t = Some O.
Lemma body_tail : forall t, body t -> tail t.
Proof. intros t H. apply H. Qed.

(** ** From the automaton to lines *)
Lemma run_lines : forall t s, run s t = Some O -> forall l r, split 10 t = l :: r ->
  Forall neat_line r /\ (l = [] -> t = [] /\ s = O \/ r <> [] /\ s = O) /\ (l <> [] -> neat_line l).
Proof.
  induction t as [|c t IH]; intros s H l r E.
  - cbn in E. injection E as <- <-. cbn in H. injection H as ->. split; auto. split; auto. congruence.
  - cbn [run] in H. cbn [split] in E. unfold step in H. destruct (N.eqb_spec c 10) as [->|NE].
    + destruct s; try discriminate H. cbn in E.
      destruct (split 10 t) as [|l' r'] eqn:S; [destruct t; cbn in S; try destruct (N.eqb _ _); try destruct (split _ _); discriminate S|].
      injection E as <- <-. destruct (IH L H l' r' eq_refl) as (F & Z & NZ). split; [|split; [right; split; auto; discriminate|congruence]].
      constructor; auto. destruct l' as [|x l']; [|apply NZ; discriminate]. destruct Z as [[_ Z]|[_ Z]]; auto; discriminate Z.
    + destruct (split 10 t) as [|l' r'] eqn:S; [destruct t; cbn in S; try destruct (N.eqb _ _); try destruct (split _ _); discriminate S|].
      assert (E' : c :: l' = l /\ r' = r).
      { destruct (N.eqb_spec 10 c) as [X|X]; [congruence|]. destruct (N.eqb_spec c 10) as [Y|Y]; [congruence|]. injection E as <- <-. auto. }
      destruct E' as [<- <-].
      assert (X : exists s', run s' t = Some O /\ (blank_c c = true -> s' = B)).
      { destruct (blank_c c); [exists B|exists O]; split; auto. discriminate. }
      destruct X as (s' & R & SB). destruct (IH s' R l' r' eq_refl) as (F & Z & NZ). split; auto. split; [discriminate|]. intros _.
      destruct l' as [|x l'].
      * exists [], c. split; auto. destruct (blank_c c) eqn:BC; auto. specialize (SB eq_refl). subst s'. destruct Z as [[_ Z]|[_ Z]]; auto; discriminate Z.
      * destruct NZ as (i & d & E' & D); [discriminate|]. exists (c :: i), d. rewrite E'. auto.
Qed.
Lemma body_neat : forall t, body t -> neat t.
Proof.
  intros t H l I. unfold lines in I. destruct (split 10 t) as [|l0 r] eqn:S; [destruct I|].
  destruct (run_lines t L (H L) l0 r S) as (F & Z & NZ). destruct I as [<-|I]; [|rewrite Forall_forall in F; auto].
  destruct l0; [|apply NZ; discriminate]. destruct Z as [[_ Z]|[_ Z]]; auto; discriminate Z.
Qed.

(** ** Pieces *)
Lemma run_flat : forall t s, ~ In 10%N t -> exists s', run s t = Some s' /\ (t = [] -> s' = s).
Proof.
  induction t as [|c t IH]; intros s H; [exists s; auto|]. cbn [run]. unfold step. destruct (N.eqb_spec c 10) as [->|]; [destruct H; left; auto|].
  destruct (blank_c c); [destruct (IH B) as (s' & E & _)|destruct (IH O) as (s' & E & _)]; try (intros I; apply H; right; auto); exists s'; split; auto; discriminate.
Qed.
Lemma plain_body : forall t, plain t = true -> body t.
Proof.
  intros t H s. unfold plain in H. apply andb_true_iff in H as [N E]. destruct (rev t) as [|c r] eqn:R; [discriminate E|].
  assert (T : t = rev r ++ [c]) by (rewrite <- (rev_involutive t), R; reflexivity). rewrite T, run_app.
  assert (NT : ~ In 10%N t) by (intros I; apply has_In in I; rewrite I in N; discriminate).
  destruct (run_flat (rev r) s) as (s' & -> & _); [intros I; apply NT; rewrite T; apply in_or_app; auto|].
  cbn [run]. unfold step. destruct (N.eqb_spec c 10) as [->|]; [exfalso; apply NT; rewrite T; apply in_or_app; right; left; auto|].
  destruct (blank_c c); [discriminate E|auto].
Qed.
Lemma run_pad : forall sp t s s' e, run L sp = Some B -> run s t = Some e -> (s' = s \/ s = L /\ s' = B) ->
  exists e', run s' (replace_c 10 (10%N :: sp) t) = Some e' /\ (e' = e \/ e = L /\ e' = B).
Proof.
  intros sp. induction t as [|c t IH]; intros s s' e P H S; [cbn in *; injection H as <-; eauto|].
  unfold replace_c in *. cbn [flat_map run] in *. unfold step in H. destruct (N.eqb_spec c 10) as [->|NE].
  - destruct s; try discriminate H. assert (s' = O) as -> by (destruct S as [S|[S _]]; [auto|discriminate S]). cbn [app run step N.eqb Pos.eqb]. rewrite run_app, P. eapply (IH L B); eauto.
  - cbn [app run]. unfold step. apply N.eqb_neq in NE. rewrite NE. destruct (blank_c c); eapply IH; eauto.
Qed.
Lemma pad_end : forall sp t s, run L sp = Some B -> run s t = Some O -> run s (replace_c 10 (10%N :: sp) t) = Some O.
Proof. intros sp t s P H. destruct (run_pad sp t s s O P H (or_introl eq_refl)) as (e & E & [->|[X _]]); auto. discriminate X. Qed.
Lemma run_indent : forall t s, run s t = Some O -> run s (indent t) = Some O.
Proof. intros t s H. exact (pad_end [32%N] t s eq_refl H). Qed.
Lemma run_indent2 : forall t s, run s t = Some O -> run s (indent2 t) = Some O.
Proof. intros t s H. exact (pad_end [32; 32]%N t s eq_refl H). Qed.
Lemma body_indent : forall t, body t -> body (indent t).
Proof. intros t H s. apply run_indent, H. Qed.
Lemma body_indent2 : forall t, body t -> body (indent2 t).
Proof. intros t H s. apply run_indent2, H. Qed.
Lemma blank_upper : forall c, N.eqb (upper_c c) 10 = N.eqb c 10 /\ blank_c (upper_c c) = blank_c c.
Proof.
  intros c. unfold upper_c, is_lower_c, blank_c. destruct ((97 <=? c)%N && (c <=? 122)%N) eqn:X; [|auto]. apply andb_true_iff in X as [A B]. apply N.leb_le in A, B.
  destruct (N.eqb_spec (c - 32) 10); [lia|]. destruct (N.eqb_spec c 10); [lia|]. split; auto.
  destruct (N.eqb_spec (c - 32) 32); [lia|]. destruct (N.eqb_spec c 32); [lia|]. destruct (N.eqb_spec (c - 32) 9); [lia|]. destruct (N.eqb_spec c 9); [lia|]. auto.
Qed.
Lemma run_upper : forall t s, run s (upper t) = run s t.
Proof. induction t as [|c t IH]; intros s; auto. cbn [upper map run]. unfold step. destruct (blank_upper c) as [-> ->]. change (map upper_c t) with (upper t). destruct (N.eqb c 10), (blank_c c), s; auto. Qed.
Lemma body_upper : forall t, body t -> body (upper t).
Proof. intros t H s. rewrite run_upper. apply H. Qed.
Lemma body_join : forall sep l, (exists s, run O sep = Some s) -> l <> [] -> Forall body l -> body (join sep l).
Proof.
  intros sep l (s0 & S) NE F. induction F as [|x l X F IH]; [congruence|]. destruct l as [|y l]; [exact X|].
  intros s. change (join sep (x :: y :: l)) with (x ++ sep ++ join sep (y :: l)). rewrite (run_seq _ _ _ _ (X s)), (run_seq _ _ _ _ S). apply IH. discriminate.
Qed.
Lemma digits_body : forall s, isdigit s = true -> body s.
Proof.
  intros s H. unfold isdigit in H. destruct s as [|c s]; [discriminate H|]. remember (c :: s) as t. assert (NE : t <> []) by (subst; discriminate). clear Heqt c s.
  assert (X : forall t st, forallb is_digit_c t = true -> t <> [] -> run st t = Some O).
  { clear. induction t as [|c t IH]; intros st H NE; [congruence|]. cbn [forallb] in H. apply andb_true_iff in H as [C H].
    unfold is_digit_c in C. apply andb_true_iff in C as [A B]. apply N.leb_le in A, B. cbn [run]. unfold step, blank_c.
    destruct (N.eqb_spec c 10); [lia|]. destruct (N.eqb_spec c 32); [lia|]. destruct (N.eqb_spec c 9); [lia|]. cbn [orb]. destruct t; auto. apply IH; auto. discriminate. }
  intros st. apply X; auto.
Qed.
Lemma int_body : forall z, body (str_of_Z z).
Proof.
  intros [|p|p]; cbn [str_of_Z]; try (apply digits_body, str_of_N_digits). intros s. cbn [run]. change (step s 45) with (Some O). apply digits_body, str_of_N_digits.
Qed.

(** Walks through a text made of pieces. *)
Ltac walk := repeat rewrite <- app_assoc; repeat first
  [ match goal with |- run _ (_ :: _) = _ => idtac end; progress cbn [run step N.eqb Pos.eqb blank_c orb]
  | erewrite run_seq by reflexivity
  | match goal with H : body ?a |- run ?s (?a ++ ?b) = _ => rewrite (run_seq a b s O (H s)) end
  | match goal with H : run ?s ?a = Some ?e |- run ?s (?a ++ ?b) = _ => rewrite (run_seq a b s e H) end
  | match goal with H : tail ?a |- run O (?a ++ ?b) = _ => rewrite (run_seq a b O O H) end ];
  repeat match goal with H : body ?a |- run ?s ?a = _ => rewrite (H s) | H : tail ?a |- run O ?a = _ => rewrite H end; try reflexivity; auto.

Definition post (m : mode) (t : str) : Prop :=
  match m with When => run O t = Some B | Clause => tail t | _ => body t end.
Lemma clause_tail : forall t, body t -> tail (clause_text t).
Proof. intros t H. pose proof (body_indent t H). unfold clause_text, tail, nl. destruct (has_nl t); walk. Qed.
Lemma when_end : forall t, body t -> run O (when_text t) = Some B.
Proof. intros t H. pose proof (body_indent2 t H). unfold when_text, nl. destruct (has_nl t); walk. Qed.
Lemma run_repeat : forall k c s, c <> 10%N -> blank_c c = false -> run s (repeat_s (S k) c) = Some O.
Proof.
  intros k c s N E. apply N.eqb_neq in N. revert s. induction k as [|k IH]; intros s; unfold repeat_s in *.
  - cbn [repeat run]. unfold step. rewrite N, E. reflexivity.
  - change (repeat c (S (S k))) with (c :: repeat c (S k)). remember (repeat c (S k)) as r. cbn [run]. unfold step. rewrite N, E. apply IH.
Qed.
Lemma side_body : forall k b t, body t -> body (side_wrap k b t).
Proof.
  intros k b t H. destruct k as [|k]; [exact H|]. intros s. unfold side_wrap. rewrite (run_seq _ _ _ O (run_repeat k 40 s ltac:(discriminate) eq_refl)).
  assert (X : run O (if b then nl ++ t else indent (nl ++ t)) = Some O) by (destruct b; [|apply run_indent]; unfold nl; walk).
  rewrite (run_seq _ _ _ _ X). unfold nl. walk. apply run_repeat; [discriminate|reflexivity].
Qed.
Lemma finish_post : forall m t, body t -> post m (finish m t).
Proof. intros [] t H; cbn [finish post]; auto using clause_tail, when_end, side_body. Qed.
Lemma rmap_all : forall {A} (f : A -> R str) (P : str -> Prop) l ts, (forall x t, In x l -> f x = Ok t -> P t) -> rmap f l = Ok ts -> Forall P ts.
Proof. intros A f P l ts H E. apply rmap_Ok in E. induction E as [|x t l ts X F IH]; constructor; [apply (H x); auto; left; auto|]. apply IH. intros. eapply H; [right; eassumption|assumption]. Qed.
Lemma rmap_nonnil : forall {A} (f : A -> R str) l ts, rmap f l = Ok ts -> l <> [] -> ts <> [].
Proof. intros A f l ts H N ->. apply rmap_length in H. destruct l; [congruence|discriminate H]. Qed.
Lemma join_run : forall sep l s, (exists s', run O sep = Some s') -> Forall body l -> run s (join sep l) = Some (match l with [] => s | _ => O end).
Proof. intros sep l s S F. destruct l as [|x l]; [reflexivity|]. apply (body_join sep (x :: l)); auto. discriminate. Qed.
Lemma call_body : forall name l, body name -> Forall body l -> body (call_text name l).
Proof.
  intros name l N F s. pose proof (body_upper _ N) as U. unfold call_text. destruct (_ || _) eqn:C.
  - unfold nl. walk. erewrite run_seq; [|apply join_run; [eexists; reflexivity|]].
    2:{ apply Forall_forall. intros x I. apply in_map_iff in I as (y & <- & I). rewrite Forall_forall in F. apply body_indent, F, I. }
    destruct l; [discriminate C|cbn [map]; walk].
  - walk. erewrite run_seq; [|apply join_run; [eexists; reflexivity|exact F]]. destruct l; walk.
Qed.
(** ** All classes *)
Lemma tidy_child : forall n c, tidy n -> In c (children n) -> tidy c.
Proof. intros n c H I x O. apply H. econstructor; eauto. Qed.
Definition kids (n : node) : Prop :=
  forall c m t, In c (children n) -> (m = Str -> is_sel c = false) -> render m c = Ok t -> post m t.
Lemma kids_all : forall n m l ts, kids n -> m <> Str -> m <> When -> m <> Clause -> (forall x, In x l -> In x (children n)) -> rmap (render m) l = Ok ts -> Forall body ts.
Proof.
  intros n m l ts K N1 N2 N3 I E. apply (rmap_all (render m) body l); auto. intros x t J R. assert (P : post m t) by (apply (K x); auto; congruence).
  destruct m; auto; congruence.
Qed.
Lemma kids_str : forall n l ts, kids n -> no_sel l = true -> (forall x, In x l -> In x (children n)) -> rmap (render Str) l = Ok ts -> Forall body ts.
Proof.
  intros n l ts K N I E. apply (rmap_all (render Str) body l); auto. intros x t J R. apply (K x Str); auto. intros _.
  unfold no_sel in N. rewrite forallb_forall in N. apply negb_true_iff, N, J.
Qed.
Lemma order_body : forall b l t, Forall body l -> order_text b l = Ok t -> tail t.
Proof.
  intros b l t F H. unfold order_text in H. destruct l as [|x [|y l]]; [discriminate H| |].
  - apply Forall_inv in F. okinj H. unfold tail. walk.
  - assert (X : forall sep, (exists s, run O sep = Some s) -> body (join sep (x :: y :: l))) by (intros; apply body_join; auto; discriminate).
    okinj H. destruct b; unfold tail; [apply run_indent|]; unfold nl; walk; apply X; eexists; reflexivity.
Qed.
Lemma select_all_body : forall v k l t, body v -> body k -> Forall body l -> select_all_text v k l = Ok t -> body t.
Proof.
  intros v k l t V K F H s. unfold select_all_text in H. destruct l as [|x [|y l]]; [discriminate H| |].
  - apply Forall_inv in F. okinj H. walk.
  - assert (X : body (join ("," ++ nl ++ " ") (x :: y :: l))) by (apply body_join; auto; [eexists; reflexivity|discriminate]).
    okinj H. remember (join _ _) as j. unfold nl. walk.
Qed.
Lemma paren_full : forall args l, (forall x m t, In x args -> m <> Str -> render m x = Ok t -> post m t) -> no_sel (tl args) = true ->
  rmap (fun a => t <- render Sub a ;; Ok (if is_select a then nl ++ t ++ nl else t)) args = Ok l -> body ("(" ++ join ", " l ++ ")").
Proof.
  intros args l K N E s. walk. apply rmap_Ok in E. destruct E as [|a x args l X F]; [reflexivity|].
  assert (FB : Forall body l).
  { cbn [tl] in N. assert (K' : forall x m t, In x args -> m <> Str -> render m x = Ok t -> post m t) by (intros; eapply K; eauto; right; auto). clear - F N K'.
    induction F as [|b y args l Y F IH]; constructor.
    - cbn [no_sel forallb] in N. apply andb_true_iff in N as [N _]. inv Y. okinj Y. change (is_select b) with (is_sel b). apply negb_true_iff in N. rewrite N.
      apply (K' b Sub); auto; [left; auto|discriminate].
    - apply IH; [cbn [no_sel forallb] in N; apply andb_true_iff in N; apply N|]. intros; eapply K'; eauto; right; auto. }
  assert (XB : exists e, run O x = Some e /\ e <> B).
  { inv X. assert (P : body t) by (apply (K a Sub); auto; [left; auto|discriminate]). okinj X. destruct (is_select a); [exists L|exists O]; (split; [unfold nl; walk|discriminate]). }
  destruct XB as (e & XE & NB). destruct l as [|y l].
  - cbn [join]. walk.
  - change (join ", " (x :: y :: l)) with (x ++ ", " ++ join ", " (y :: l)).
    assert (J : body (join ", " (y :: l))) by (apply body_join; auto; [eexists; reflexivity|discriminate]). remember (join _ _) as j. walk.
Qed.
Ltac kid := cbn [children olist ollist map]; repeat first [rewrite in_app_iff | progress cbn [In]];
  repeat match goal with I : In _ (_ :: _) |- _ => cbn [In] in I end; tauto.
(** [kids] at a child in a mode where the text is a [body] *)
Ltac tr K E := match type of E with render ?m ?c = Ok ?t => let P := fresh "P" in
  assert (P : post m t) by (apply (K c m t); [kid|discriminate|exact E]); cbn [post] in P end.
Ltac strs K E := match type of E with render ?m ?c = Ok ?t => let P := fresh "P" in
  assert (P : post m t) by (apply (K c m t); [kid|intros _; apply negb_true_iff; assumption|exact E]); cbn [post] in P end.
Lemma body_col : forall v, plain v = true -> body (column_text v).
Proof. intros v H. apply plain_body in H. unfold column_text. destruct (mem v _); auto. apply body_upper, H. Qed.
Lemma string_body : forall v q p, ~ In 10%N v -> body q -> oall (fun p => negb (has 10 p)) p = true -> body (match p with Some p => p | None => [] end ++ q ++ v ++ q).
Proof.
  intros v q p V Q P s.
  assert (X : exists e, run s (match p with Some p => p | None => [] end) = Some e).
  { destruct p as [p|]; [|exists s; reflexivity]. cbn [oall] in P. apply negb_true_iff in P. destruct (run_flat p s) as (e & E & _); eauto. intros I. apply has_In in I. congruence. }
  destruct X as (e & X). rewrite (run_seq _ _ _ _ X), (run_seq _ _ _ _ (Q e)). destruct (run_flat v O V) as (e' & E & _). rewrite (run_seq _ _ _ _ E). apply Q.
Qed.
Lemma select_modes : forall exprs a d don f w g h o l off semi m, m <> Str ->
  render m (NSelect exprs a d don f w g h o l off semi) =
  (u <- render Tr (NSelect exprs a d don f w g h o l off false) ;;
   Ok match m with Sub | JoinSide => " " ++ indent u | Side k => side_wrap k true (" " ++ indent u) | _ => finish m (u ++ (if semi then ";" else "")) end).
Proof.
  intros exprs a d don f w g h o l off semi m M. rewrite !render_NSelect. cbv zeta. destruct m; try congruence.
  all: repeat match goal with |- rbind ?a _ = rbind (rbind ?a _) _ => destruct a; [cbn [rbind]|reflexivity] end; cbn [finish]; rewrite app_nil_r; reflexivity.
Qed.
Lemma kids_select : forall exprs a d don f w g h o l off t,
  kids (NSelect exprs a d don f w g h o l off false) -> tidy_node (NSelect exprs a d don f w g h o l off false) = true ->
  render Tr (NSelect exprs a d don f w g h o l off false) = Ok t -> body t.
Proof.
  intros exprs a d don f w g h o l off t K Z H. rewrite render_NSelect in H. cbn [tidy_node] in Z.
  repeat match type of Z with _ && _ = true => let Z' := fresh "Z" in apply andb_true_iff in Z as [Z Z'] end.
  inv H. assert (T0 : tail t0).
  { clear H. destruct a; [okinj E; reflexivity|]. destruct d; [|okinj E; reflexivity]. destruct don as [[|x l0]|]; try (okinj E; reflexivity).
    inv E. assert (F : Forall body t1) by (eapply (kids_str _ (x :: l0)); [exact K|assumption| |exact E0]; intros y I; kid).
    okinj E. unfold tail. walk. rewrite (run_seq _ _ _ _ (join_run ", " t1 O ltac:(eexists; reflexivity) F)). destruct t1; reflexivity. }
  clear E. inv H. cbv zeta in H.
  assert (T1 : tail (match t1 with [e] => " " ++ e | _ => nl ++ " " ++ join ("," ++ nl ++ " ") (map indent t1) end)).
  { clear H. assert (F : Forall body t1) by (eapply (kids_all _ Tr exprs); [exact K|discriminate|discriminate|discriminate| |exact E]; intros y I; kid).
    assert (N : t1 <> []) by (eapply rmap_nonnil; [exact E|]; destruct exprs; [discriminate Z|discriminate]).
    destruct t1 as [|x [|y r]]; [congruence|apply Forall_inv in F; unfold tail; walk|].
    assert (X : body (join ("," ++ nl ++ " ") (map indent (x :: y :: r)))).
    { apply body_join; [eexists; reflexivity|discriminate|]. apply Forall_forall. intros z I. apply in_map_iff in I as (z' & <- & I). rewrite Forall_forall in F. apply body_indent, F, I. }
    remember (join _ _) as j. unfold tail, nl. walk. }
  remember (match t1 with [e] => _ | _ => _ end) as ee. clear E.
  inv H. assert (T2 : tail t2) by (destruct f as [x|]; [inv E; tr K E0; okinj E; unfold tail, nl; walk|okinj E; reflexivity]). clear E.
  inv H. assert (T3 : tail t3) by (destruct w as [x|]; [inv E; tr K E0; okinj E; unfold tail, nl; walk|okinj E; reflexivity]). clear E.
  inv H. assert (T4 : tail t4).
  { destruct g as [[[args rollup] each]|]; [|okinj E; reflexivity]. inv E.
    assert (X : tail t5).
    { destruct args as [|x [|y r]]; [discriminate E0|inv E0; tr K E1; okinj E0; unfold tail; walk|]. inv E0.
      assert (F : Forall body t6) by (eapply (kids_str _ (x :: y :: r)); [exact K|assumption| |exact E1]; intros z I; kid).
      assert (X : body (join ("," ++ nl) t6)) by (apply body_join; auto; [eexists; reflexivity|eapply rmap_nonnil; [exact E1|discriminate]]).
      okinj E0. apply run_indent. remember (join _ _) as j. unfold nl. walk. }
    okinj E. unfold tail, nl. destruct each, rollup; walk. }
  clear E.
  inv H. assert (T5 : tail t5) by (destruct h as [x|]; [inv E; tr K E0; okinj E; unfold tail, nl; walk|okinj E; reflexivity]). clear E.
  inv H. assert (T6 : tail t6).
  { destruct o as [l0|]; [|okinj E; reflexivity]. inv E. inv E.
    assert (F : Forall body t7) by (eapply (kids_str _ l0); [exact K|assumption| |exact E0]; intros z I; kid).
    apply order_body in E1; auto. okinj E. unfold tail, nl. walk. }
  clear E.
  inv H. assert (T7 : tail t7).
  { destruct l as [[[] [x|]]|]; try (okinj E; reflexivity). inv E.
    assert (P : body t8) by (apply (K x Str); auto; [kid|intros _; cbn [no_sel forallb] in Z1; apply andb_true_iff in Z1 as [Z1 _]; apply negb_true_iff, Z1]).
    okinj E. unfold tail, nl. walk. }
  clear E.
  inv H. assert (T8 : tail t8).
  { destruct off as [x|]; [|okinj E; reflexivity]. inv E.
    assert (P : body t9) by (apply (K x Str); auto; [kid|intros _; cbn [olist no_sel forallb] in Z0; apply andb_true_iff in Z0 as [Z0 _]; apply negb_true_iff, Z0]).
    okinj E. unfold tail, nl. walk. }
  clear E. cbn [finish] in H. okinj H. rewrite app_nil_r. intros s. walk.
Qed.
Ltac alls K E := match type of E with rmap (render ?m) ?l = Ok ?ts => eapply (kids_all _ m l); [exact K|discriminate|discriminate|discriminate| |exact E]; intros; kid end.
Ltac jn F := match type of F with Forall body ?l => match goal with |- run ?s (join ?sep l ++ _) = _ =>
  rewrite (run_seq _ _ _ _ (join_run sep l s ltac:(eexists; reflexivity) F)); destruct l; reflexivity end end.
Lemma kids_nosemi : forall exprs a d don f w g h o l off semi, kids (NSelect exprs a d don f w g h o l off semi) -> kids (NSelect exprs a d don f w g h o l off false).
Proof. intros exprs a d don f w g h o l off semi K c. exact (K c). Qed.
Lemma clause_paren_tail : forall full inner, body full -> (has_nl full = true -> body inner) -> tail (clause_paren full inner).
Proof. intros full inner F I. unfold clause_paren, tail, nl. destruct (has_nl full); [pose proof (body_indent _ (I eq_refl))|]; walk. Qed.
Lemma when_paren_end : forall full inner, body full -> (has_nl full = true -> body inner) -> run O (when_paren full inner) = Some B.
Proof. intros full inner F I. unfold when_paren, nl. destruct (has_nl full); [pose proof (body_indent2 _ (I eq_refl))|]; walk. Qed.
Lemma tidy_post : forall n, tidy n -> forall m t, (m = Str -> is_sel n = false) -> render m n = Ok t -> post m t.
Proof.
  intros n. induction n as [n IH] using node_inside_ind. intros TN m t M H.
  assert (K : kids n) by (intros c m' t' I; apply IH; [apply inside_child, I|eapply tidy_child; eassumption]).
  assert (Z : tidy_node n = true) by (apply TN; constructor). clear IH TN. destruct n.
  - assert (MS : m <> Str) by (intros X; discriminate (M X)). rewrite select_modes in H by exact MS. inv H.
    apply kids_select in E; [|eapply kids_nosemi; exact K|exact Z]. okinj H. clear K Z M.
    assert (U : body (t0 ++ (if semi then ";" else ""))) by (intros s; destruct semi; walk; rewrite app_nil_r; walk).
    assert (V : body (" " ++ indent t0)) by (pose proof (body_indent _ E); intros s; walk).
    destruct m; try (exact (finish_post _ _ U)); try exact V; try congruence. apply side_body, V.
  - rewrite render_NWith in H. cbn [tidy_node] in Z. apply andb_true_iff in Z as [Z1 Z2].
    assert (H' : exists qs s, rmap (fun q : str * node => if is_with (snd q) then Err TypeError else t <- render Sub (snd q) ;; Ok (fst q ++ " AS (" ++ nl ++ t ++ nl ++ ")")) queries = Ok qs
      /\ render Tr n = Ok s /\ t = finish m ("WITH " ++ join ("," ++ nl) qs ++ nl ++ s)).
    { destruct m; try discriminate H; inv H; inv H; okinj H; eauto. }
    destruct H' as (qs & s & E & E0 & ->). clear H. apply finish_post. tr K E0.
    assert (F : Forall body qs).
    { eapply rmap_all; [|exact E]. intros [nm q] x I X. cbn [fst snd] in X. destruct (is_with q); [discriminate X|]. inv X.
      assert (P1 : body t) by (apply (K q Sub); [cbn [children]; apply in_or_app; left; apply (in_map snd) in I; exact I|discriminate|exact E1]).
      assert (P2 : body nm) by (rewrite forallb_forall in Z2; apply Z2 in I; apply plain_body, I).
      okinj X. intros st. unfold nl. walk. }
    assert (J : body (join ("," ++ nl) qs)) by (apply body_join; auto; [eexists; reflexivity|eapply rmap_nonnil; [exact E|destruct queries; discriminate]]).
    remember (join _ _) as j. intros st. unfold nl. walk.
  - rewrite render_NOrderItem in H. inv H. okinj H. apply finish_post. inv E. cbn [tidy_node] in Z. strs K E0. okinj E. intros s. destruct asc; [walk|destruct desc; walk].
  - rewrite render_NFun in H. inv H. okinj H. apply finish_post. inv E. okinj E. apply call_body; [apply plain_body, Z|]. alls K E0.
  - rewrite render_NCast in H. inv H. okinj H. apply finish_post. inv E. tr K E0. okinj E. pose proof (body_upper _ (plain_body _ Z)). intros s. walk.
  - rewrite render_NCount in H. inv H. okinj H. apply finish_post. inv E. assert (F : Forall body t1) by alls K E0. okinj E. intros s. destruct distinct; walk; jn F.
  - rewrite render_NArrayAgg in H. inv H. okinj H. apply finish_post. inv E. inv E. tr K E0. cbn [tidy_node] in Z.
    assert (T2 : tail t2).
    { destruct order as [l0|]; [|okinj E1; reflexivity]. inv E1. inv E1.
      assert (F : Forall body t3) by (eapply (kids_str _ l0); [exact K|assumption| |exact E2]; intros z I; kid).
      apply order_body in E3; auto. okinj E1. unfold tail. walk. }
    okinj E. assert (IB : forall z, body (str_of_Z z)) by apply int_body. intros s. destruct distinct, ignore_nulls, respect_nulls, limit as [z|]; walk; try (destruct (Z.eqb z 0); walk); pose proof (IB z); walk.
  - rewrite render_NFiltered in H. inv H. okinj H. apply finish_post. inv E. inv E. tr K E0. tr K E1. okinj E. intros s. walk.
  - rewrite render_NAnalytics in H. inv H. okinj H. apply finish_post. inv E. inv E. inv E. tr K E0. cbn [tidy_node] in Z. apply andb_true_iff in Z as [Z1 Z2].
    assert (T2 : tail t2).
    { destruct partition as [[|x l0]|]; try (okinj E1; reflexivity). inv E1.
      assert (F : Forall body t4) by (eapply (kids_all _ Tr (x :: l0)); [exact K|discriminate|discriminate|discriminate| |exact E3]; intros z I; kid).
      assert (N : t4 <> []) by (eapply rmap_nonnil; [exact E3|discriminate]). okinj E1. destruct t4 as [|y [|z r]]; [congruence|apply Forall_inv in F; unfold tail, nl; walk|].
      assert (J : body (join ("," ++ nl ++ "  ") (y :: z :: r))) by (apply body_join; auto; eexists; reflexivity). remember (join _ _) as j. unfold tail, nl. walk. }
    assert (T3 : tail t3).
    { destruct order as [l0|]; [|okinj E2; reflexivity]. inv E2. inv E2.
      assert (F : Forall body t4) by (eapply (kids_str _ l0); [exact K|assumption| |exact E3]; intros z I; kid).
      apply order_body in E4; auto. apply run_indent in E4. okinj E2. unfold tail, nl. walk. }
    cbv zeta in E. assert (S1 : body (t1 ++ " OVER (" ++ t2 ++ t3)) by (intros s; walk). remember (t1 ++ " OVER (" ++ t2 ++ t3) as s1.
    assert (S2 : body (match frame with Some (rr, fr) => s1 ++ (if has_nl s1 then nl ++ " " else "") ++ upper rr ++ " " ++ upper fr | None => s1 end)).
    { destruct frame as [[rr fr]|]; auto. cbn [oall fst snd] in Z2. apply andb_true_iff in Z2 as [A1 A2]. pose proof (body_upper _ (plain_body _ A1)). pose proof (body_upper _ (plain_body _ A2)).
      intros s. unfold nl. destruct (has_nl s1); walk. }
    remember (match frame with Some _ => _ | None => _ end) as s2. okinj E. intros s. unfold nl. destruct (has_nl s2); walk.
  - rewrite render_NColumn in H. inv H. okinj H. apply finish_post. okinj E. apply body_col, Z.
  - rewrite render_NChained in H. inv H. okinj H. apply finish_post. inv E. inv E. tr K E0. tr K E1. okinj E. intros s. walk.
  - rewrite render_NType in H. inv H. okinj H. apply finish_post. okinj E. apply body_upper, plain_body, Z.
  - rewrite render_NDatePart in H. inv H. okinj H. apply finish_post. inv E. tr K E0. okinj E. pose proof (body_upper _ (plain_body _ Z)). intros s. walk.
  - rewrite render_NString in H. inv H. okinj H. apply finish_post. okinj E. cbn [tidy_node] in Z. apply andb_true_iff in Z as [Z Z3]. apply andb_true_iff in Z as [Z1 Z2].
    apply string_body; [intros I; apply has_In in I; rewrite I in Z1; discriminate|apply plain_body, Z2|exact Z3].
  - rewrite render_NInt in H. inv H. okinj H. apply finish_post. okinj E. apply int_body.
  - rewrite render_NFloat in H. inv H. okinj H. apply finish_post. okinj E. apply plain_body, Z.
  - rewrite render_NNull in H. inv H. okinj H. apply finish_post. okinj E. intros s. reflexivity.
  - rewrite render_NBool in H. inv H. okinj H. apply finish_post. okinj E. intros s. destruct b; reflexivity.
  - rewrite render_NParen in H. cbv zeta in H. cbn [tidy_node] in Z.
    assert (KA : forall x m t, In x args -> m <> Str -> render m x = Ok t -> post m t) by (intros x m' t' I NS; apply (K x m'); [exact I|congruence]).
    assert (FULL : forall u, (l <- rmap (fun a => t <- render Sub a ;; Ok (if is_select a then nl ++ t ++ nl else t)) args ;; Ok ("(" ++ join ", " l ++ ")")) = Ok u -> body u).
    { intros u U. inv U. okinj U. eapply paren_full; eassumption. }
    assert (HD : forall m' a r t, args = a :: r -> m' <> Str -> render m' a = Ok t -> post m' t) by (intros m' a r t' -> NS; apply KA; [left; auto|exact NS]).
    remember (l <- rmap (fun a => t <- render Sub a ;; Ok (if is_select a then nl ++ t ++ nl else t)) args ;; Ok ("(" ++ join ", " l ++ ")")) as full.
    clear Heqfull K KA Z M. destruct m; cbn [post].
    1-3: apply FULL; exact H.
    + destruct args as [|a r]; [discriminate H|]. inv H. apply (HD Tr a r _ eq_refl) in E; [|discriminate]. cbn [post] in E. okinj H. pose proof (body_indent _ E). intros s. unfold nl. destruct (has_nl t0); walk.
    + inv H. clear E. pose proof (FULL _ eq_refl) as E. destruct (has_nl t0) eqn:HN; [|okinj H; apply clause_paren_tail; auto; congruence]. destruct args as [|a r]; [discriminate H|]. inv H.
      apply (HD Tr a r _ eq_refl) in E0; [|discriminate]. okinj H. apply clause_paren_tail; auto.
    + inv H. clear E. pose proof (FULL _ eq_refl) as E. destruct (has_nl t0) eqn:HN; [|okinj H; apply when_paren_end; auto; congruence]. destruct args as [|a r]; [discriminate H|]. inv H.
      apply (HD Tr a r _ eq_refl) in E0; [|discriminate]. okinj H. apply when_paren_end; auto.
    + destruct args as [|a r]; [discriminate H|]. inv H. apply (HD Sub a r _ eq_refl) in E; [|discriminate]. cbn [post] in E. okinj H. pose proof (body_indent _ E). intros s. unfold nl. destruct (is_select a); walk.
    + destruct args as [|a r]; [discriminate H|]. inv H. apply (HD Sub a r _ eq_refl) in E; [|discriminate]. cbn [post] in E. okinj H. pose proof (body_indent _ E). intros s. unfold nl. destruct (is_select a); walk.
    + destruct args as [|a r]; [discriminate H|]. apply (HD (Side 1) a r _ eq_refl) in H; [exact H|discriminate].
    + destruct args as [|a r]; [discriminate H|]. apply (HD (Side (S k)) a r _ eq_refl) in H; [exact H|discriminate].
  - rewrite render_NArray in H. inv H. okinj H. apply finish_post. inv E. assert (F : Forall body t1) by alls K E0. okinj E. intros s. walk. jn F.
  - rewrite render_NAlias in H. cbn [tidy_node] in Z.
    assert (H' : exists m1 m2 x a, render m1 n = Ok x /\ match alias with inl s => Ok s | inr y => render m2 y end = Ok a /\ m1 <> Str /\ m1 <> When /\ m1 <> Clause /\ m2 <> When /\ m2 <> Clause
      /\ (t = finish m (x ++ (if with_as then " AS " else " ") ++ a) \/ post m = body /\ t = x ++ (if with_as then " AS" else "") ++ " " ++ a)).
    { destruct m; try discriminate H; inv H; inv H; okinj H; do 4 eexists; (split; [exact E|split; [exact E0|repeat split; try discriminate]]); try (left; reflexivity). right. split; reflexivity. }
    destruct H' as (m1 & m2 & x & a & E & E0 & N1 & N2 & N3 & N4 & N5 & T). clear H.
    assert (X : body x) by (assert (P : post m1 x) by (apply (K n m1); [kid|congruence|exact E]); destruct m1; congruence || exact P).
    assert (A : body a).
    { destruct alias as [s|y]; [okinj E0; apply plain_body, Z|]. assert (P : post m2 a) by (apply (K y m2); [kid|intros _; apply negb_true_iff, Z|exact E0]). destruct m2; congruence || exact P. }
    destruct T as [->|[-> ->]]; [apply finish_post|]; intros s; destruct with_as; walk.
  - rewrite render_NIndex in H. inv H. okinj H. apply finish_post. inv E. inv E. tr K E0. assert (F : Forall body t2) by alls K E1. okinj E. intros s. walk. jn F.
  - rewrite render_NArith in H. inv H. okinj H. apply finish_post. inv E. inv E. cbn [tidy_node no_sel forallb] in Z. apply andb_true_iff in Z as [Z1 Z2]. apply andb_true_iff in Z2 as [Z2 Z3]. apply andb_true_iff in Z3 as [Z3 _].
    strs K E0. strs K E1. okinj E. apply plain_body in Z1. intros s. walk.
  - rewrite render_NBitwise in H. inv H. okinj H. apply finish_post. inv E. inv E. tr K E0. tr K E1. okinj E. apply plain_body in Z. intros s. walk.
  - rewrite render_NTable in H. inv H. okinj H. apply finish_post. inv E. tr K E0. okinj E. intros s. destruct brackets; walk.
  - rewrite render_NUnnest in H. inv H. okinj H. apply finish_post. inv E. tr K E0. okinj E. intros s. destruct with_offset; [|walk].
    destruct alias as [[|c a]|]; [walk| |walk]. apply plain_body in Z. remember (c :: a) as ca. destruct with_offset_as; walk.
  - rewrite render_NJoin in H. inv H. okinj H. apply finish_post. inv E. inv E. inv E. tr K E0. tr K E1.
    assert (T3 : tail t3).
    { destruct on_ as [x|]; [inv E2; tr K E3; okinj E2; unfold tail, nl; walk|]. destruct using_ as [x|]; [inv E2; tr K E3; okinj E2; unfold tail, nl; walk|okinj E2; reflexivity]. }
    okinj E. apply plain_body in Z. pose proof (body_upper _ Z). intros s. unfold nl. destruct (str_eqb ty ","); walk.
  - rewrite render_NCombined in H. inv H. okinj H. apply finish_post. inv E. inv E. tr K E0. tr K E1. okinj E. apply plain_body in Z. pose proof (body_upper _ Z). intros s. unfold nl. destruct (is_table _); walk.
  - rewrite render_NCond in H. inv H. okinj H. apply finish_post. inv E. inv E. tr K E0. tr K E1. okinj E. apply plain_body in Z. pose proof (body_upper _ Z). intros s. walk.
  - rewrite render_NBoolC in H. assert (U : body (upper ty)) by apply body_upper, plain_body, Z.
    assert (H' : exists (b : bool) tl tr x, render Tr n1 = Ok tl /\ render Tr n2 = Ok tr /\ (if b then Ok (tl ++ " " ++ upper ty ++ " " ++ tr) else nl_ <- render NL n1 ;; nr <- render NL n2 ;; Ok (nl_ ++ nl ++ upper ty ++ " " ++ nr)) = Ok x /\ t = finish m x).
    { destruct m; try discriminate H; inv H; inv H; cbv zeta in H; inv H; apply Ok_inj in H; do 4 eexists; (split; [first [exact E | reflexivity]|split; [first [exact E0 | reflexivity]|split; [exact E1|symmetry; exact H]]]). }
    destruct H' as (b & tl & tr & x & E & E0 & E1 & ->). clear H. apply finish_post.
    assert (T : x = tl ++ " " ++ upper ty ++ " " ++ tr \/ exists nl_ nr, render NL n1 = Ok nl_ /\ render NL n2 = Ok nr /\ x = nl_ ++ nl ++ upper ty ++ " " ++ nr).
    { destruct b; [apply Ok_inj in E1; auto|]. inv E1. inv E1. apply Ok_inj in E1. right. do 2 eexists; split; [reflexivity|split; [reflexivity|symmetry; exact E1]]. }
    clear E1. tr K E. tr K E0. intros s. destruct T as [->|(nl_ & nr & E1 & E2 & ->)]; [walk|].
    tr K E1. tr K E2. unfold nl. walk.
  - rewrite render_NNeg in H. inv H. okinj H. apply finish_post. inv E. tr K E0. okinj E. intros s. destruct (is_paren _); walk.
  - rewrite render_NExcept in H. inv H. okinj H. apply finish_post. inv E. inv E. tr K E0. assert (F : Forall body t2) by alls K E1. eapply select_all_body; [exact P| |exact F|exact E]. intros s; reflexivity.
  - rewrite render_NReplace in H. inv H. okinj H. apply finish_post. inv E. inv E. tr K E0. assert (F : Forall body t2) by alls K E1. eapply select_all_body; [exact P| |exact F|exact E]. intros s; reflexivity.
  - rewrite render_NCase in H. inv H. okinj H. apply finish_post. inv E. inv E. inv E. cbn [tidy_node] in Z. apply andb_true_iff in Z as [Z1 Z2].
    assert (T1 : tail t1) by (destruct e as [x|]; [inv E0; tr K E3; okinj E0; unfold tail; walk|okinj E0; reflexivity]).
    assert (T3 : tail t3) by (destruct els as [x|]; [inv E2; tr K E3; okinj E2; unfold tail, nl; walk|okinj E2; reflexivity]).
    assert (F : Forall body t2).
    { eapply rmap_all; [|exact E1]. intros [w th] x I X. cbn [fst snd] in X. inv X. inv X.
      assert (P1 : post When t4) by (apply (K w When); [pose proof (in_map fst _ _ I) as I'; cbn [fst] in I'; kid|discriminate|exact E3]).
      assert (P2 : post Str t5) by (apply (K th Str); [pose proof (in_map snd _ _ I) as I'; cbn [snd] in I'; kid| |exact E4];
        intros _; pose proof (in_map snd _ _ I) as I'; unfold no_sel in Z2; rewrite forallb_forall in Z2; apply Z2 in I'; apply negb_true_iff, I').
      cbn [post] in P1, P2. okinj X. intros s. walk. }
    assert (J : body (join (nl ++ " ") t2)) by (apply body_join; auto; [eexists; reflexivity|eapply rmap_nonnil; [exact E1|destruct whens; discriminate]]).
    remember (join _ _) as j. okinj E. intros s. unfold nl. walk.
Qed.
Lemma tidy_neat : forall n t, tidy n -> transform n = Ok t -> neat t.
Proof. intros n t T H. apply body_neat. apply (tidy_post n T Tr t); [discriminate|exact H]. Qed.
