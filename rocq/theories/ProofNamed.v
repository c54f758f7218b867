(** C66: the exact answer of is_valid() for queries on tables with and without aliases. *)
From Coq Require Import Permutation.
From Verif Require Import PyStr Lib Ast AstLib Render RenderEq Digits Validate Api Grammar GramTok GramText GramPrint SpecVal SpecScope SpecReport SpecNested SpecAnswer SpecApi SpecStuck
  ProofVal ProofVal2 ProofScope ProofReport ProofApi ProofNested ProofAnswer ProofRaise2 ProofStuck SpecTables ProofTables SpecNamed.
Local Open Scope str_scope.
Local Open Scope list_scope.

(** ** Texts that are not names *)
Lemma ident_chars : forall a c, ident a = true -> In c a -> word_char c = true.
Proof. intros a c I H. unfold ident, word in I. bools. match goal with U : forallb word_char a = true |- _ => rewrite forallb_forall in U; apply U; auto end. Qed.
Lemma not_char : forall a c, ident a = true -> word_char c = false -> ~ In c a.
Proof. intros a c I W H. rewrite (ident_chars a c I H) in W. discriminate W. Qed.
Lemma ident_plain : forall a, ident a = true -> plain a.
Proof. intros a I. unfold plain. destruct (has 46 a) eqn:E; auto. apply has_In in E. exfalso. eapply (not_char a 46%N I eq_refl E). Qed.
Lemma lower_upper_kw : forall v, In v COLUMN_KEYWORDS -> lower (upper v) = v.
Proof. apply Forall_forall. repeat constructor. Qed.
Lemma lower_kw : forall v, In v COLUMN_KEYWORDS -> In (lower v) COLUMN_KEYWORDS.
Proof. intros v I. assert (E : lower v = v) by (revert v I; apply Forall_forall; repeat constructor). rewrite E. auto. Qed.
Ltac here_in := cbn; repeat first [left; reflexivity|right].
Lemma text_name : forall l a, wf Ex l = true -> lvl l = 0%nat -> is_number l = false -> render Tr l = Ok a -> ident a = true -> ~ In (lower a) COLUMN_KEYWORDS -> l = NColumn a.
Proof.
  intros l a W L Nn R I K.
  assert (C : forall c, word_char c = false -> In c a -> l = NColumn a) by (intros c Wc Ic; destruct (not_char a c I Wc Ic)).
  destruct l; try discriminate L; try discriminate Nn; try discriminate W.
  - (* call *) rewrite render_NFun in R. inv_bind R. injection R as <-. inv_bind Hb. injection Hb as <-. apply (C 40%N eq_refl). unfold call_text, finish. destruct (_ || _); apply in_or_app; right; left; auto.
  - rewrite render_NCast in R. inv_bind R. injection R as <-. inv_bind Hb. injection Hb as <-. apply (C 40%N eq_refl). here_in.
  - rewrite render_NCount in R. inv_bind R. injection R as <-. inv_bind Hb. injection Hb as <-. apply (C 40%N eq_refl). here_in.
  - rewrite render_NArrayAgg in R. inv_bind R. injection R as <-. inv_bind Hb. inv_bind Hb. injection Hb as <-. apply (C 40%N eq_refl). here_in.
  - rewrite render_NFiltered in R. inv_bind R. injection R as <-. inv_bind Hb. inv_bind Hb. injection Hb as <-. apply (C 32%N eq_refl). apply in_or_app; right; left; auto.
  - rewrite render_NAnalytics in R. inv_bind R. injection R as <-. inv_bind Hb. inv_bind Hb. inv_bind Hb. cbv zeta in Hb. injection Hb as <-. apply (C 32%N eq_refl). cbn [Render.finish]. apply in_or_app; left. destruct frame as [[rr fr]|]; [apply in_or_app; left|]; apply in_or_app; right; left; auto.
  - (* column *) rewrite render_NColumn in R. cbn [rbind Render.finish] in R. injection R as R. unfold column_text in R. destruct (mem v COLUMN_KEYWORDS) eqn:M; [|congruence].
    apply mem_In in M. subst a. rewrite lower_upper_kw in K by auto. contradiction.
  - rewrite render_NString in R. cbn [rbind Render.finish] in R. injection R as <-. cbn [wf] in W. destruct prefix; [discriminate W|]. bools.
    match goal with U : mem quotes QUOTES = true |- _ => apply mem_In in U; cbn in U; destruct U as [<-|[<-|[<-|[]]]] | U : In quotes QUOTES |- _ => cbn in U; destruct U as [<-|[<-|[<-|[]]]] end;
      [eapply (C 39%N eq_refl)|eapply (C 34%N eq_refl)|eapply (C 96%N eq_refl)]; cbn; auto.
  - rewrite render_NNull in R. cbn [rbind Render.finish] in R. injection R as <-. discriminate I.
  - rewrite render_NBool in R. cbn [rbind Render.finish] in R. injection R as <-. destruct b; discriminate I.
  - rewrite render_NParen in R. cbv zeta in R. inv_bind R. injection R as <-. apply (C 40%N eq_refl). left. auto.
  - rewrite render_NArray in R. inv_bind R. injection R as <-. inv_bind Hb. injection Hb as <-. apply (C 91%N eq_refl). here_in.
  - rewrite render_NIndex in R. inv_bind R. injection R as <-. inv_bind Hb. inv_bind Hb. injection Hb as <-. apply (C 91%N eq_refl). apply in_or_app; right; left; auto.
  - rewrite render_NCase in R. inv_bind R. injection R as <-. inv_bind Hb. inv_bind Hb. inv_bind Hb. injection Hb as <-. apply (C 10%N eq_refl). do 4 right. apply in_or_app; right; left; auto.
Qed.
(** [a.*] *)
Definition dot_all (a : str) : str := a ++ ".*".
Lemma dot_chars : forall a c, ident a = true -> In c (dot_all a) -> word_char c = true \/ c = 46%N \/ c = 42%N.
Proof. intros a c I H. unfold dot_all in H. apply in_app_or in H as [H|[<-|[<-|[]]]]; auto. left. eapply ident_chars; eauto. Qed.
Lemma split_dot : forall a u1 u2, ident a = true -> u1 ++ "." ++ u2 = dot_all a -> u1 = a /\ u2 = "*".
Proof.
  intros a. unfold dot_all. intros u1 u2 I E. apply ident_plain in I. unfold plain in I. assert (N : ~ In 46%N a) by (intros X; apply has_In in X; congruence). clear I.
  revert u1 E. induction a as [|c a IH]; intros u1 E; destruct u1 as [|d u1]; cbn in E.
  - injection E as ->. auto.
  - injection E as -> E. exfalso. destruct u1 as [|x [|y u1]]; discriminate E.
  - injection E as <- _. destruct N. left. auto.
  - injection E as -> E. destruct (IH ltac:(intros X; apply N; right; auto) u1 E) as [-> ->]. auto.
Qed.
Lemma value_dot : forall e y, leads e y -> wf Ex e = true -> value_like y \/ is_sel y = true \/ y = NParen [] -> forall t, render Tr e = Ok t -> forall a, ident a = true -> t <> dot_all a.
Proof.
  intros e y L W V t R a I E.
  assert (C : forall c, word_char c = false -> c <> 46%N -> c <> 42%N -> In c t -> False).
  { intros c Wc N1 N2 Ic. rewrite E in Ic. destruct (dot_chars a c I Ic) as [X|[X|X]]; congruence. }
  assert (In46 : In 46%N t /\ In 42%N t) by (rewrite E; unfold dot_all; split; apply in_or_app; right; cbn; auto). destruct In46 as [I46 I42].
  destruct L.
  - destruct V as [V|[V| ->]].
    + destruct V.
      * rewrite render_NString in R. cbn [rbind Render.finish] in R. injection R as <-. cbn [wf] in W. destruct p; [discriminate W|]. bools.
        match goal with U : mem q QUOTES = true |- _ => apply mem_In in U; cbn in U; destruct U as [<-|[<-|[<-|[]]]] | U : In q QUOTES |- _ => cbn in U; destruct U as [<-|[<-|[<-|[]]]] end;
          [eapply (C 39%N eq_refl)|eapply (C 34%N eq_refl)|eapply (C 96%N eq_refl)]; try discriminate; cbn; auto.
      * rewrite render_NInt in R. cbn [rbind Render.finish] in R. injection R as <-.
        assert (D : forall n, (0 <= n)%Z -> In 46%N (str_of_Z n) -> False).
        { intros n Hn X. pose proof (str_of_Z_digits n Hn) as D. unfold isdigit in D. destruct (str_of_Z n) as [|d ds]; [discriminate D|]. rewrite forallb_forall in D. apply D in X. discriminate X. }
        destruct z; [eapply (D 0%Z); [lia|exact I46]|eapply (D (Z.pos p)); [lia|exact I46]|].
        cbn [str_of_Z] in I46. destruct I46 as [X|X]; [discriminate X|]. apply (D (Z.pos p)); [lia|exact X].
      * rewrite render_NFloat in R. cbn [rbind Render.finish] in R. injection R as ->. cbn [wf] in W. unfold float_ok in W. bools.
        match goal with U : forallb _ _ = true |- _ => rewrite forallb_forall in U; specialize (U 42%N) end.
        assert (X : In 42%N (match t with 45%N :: t0 => t0 | _ => t end)).
        { clear - I42. destruct t as [|c t]; [destruct I42|]. destruct I42 as [->|I42]; [exact (or_introl eq_refl)|]. destruct c as [|c]; [exact (or_intror I42)|]. do 6 (try (destruct c as [c|c|]); try (exact (or_intror I42)); try exact I42). }
        match goal with U : In 42%N _ -> _ |- _ => specialize (U X); discriminate U end.
      * rewrite render_NNull in R. cbn [rbind Render.finish] in R. injection R as <-. cbn in I46. intuition discriminate.
      * rewrite render_NArith in R. inv_bind R. inv_bind Hb. inv_bind Hb. injection Hb as <-. cbn [Render.finish] in R. injection R as <-. apply (C 32%N); auto; try discriminate. apply in_or_app. right. left. auto.
    + destruct e; try discriminate V. discriminate W.
    + rewrite render_NParen in R. cbn in R. injection R as <-. cbn in I46. intuition discriminate.
  - rewrite render_NParen in R. cbv zeta in R. inv_bind R. injection R as <-. apply (C 40%N); auto; try discriminate. left. auto.
  - rewrite render_NAlias in R. inv_bind R. inv_bind R. cbn [Render.finish] in R. injection R as <-. apply (C 32%N); auto; try discriminate. destruct w; apply in_or_app; right; left; auto.
  - rewrite render_NChained in R. inv_bind R. inv_bind Hb. inv_bind Hb. injection Hb as <-. cbn [Render.finish] in R. injection R as <-.
    rewrite wf_chained in W. bools. change (a1 ++ 46%N :: a2) with (a1 ++ "." ++ a2) in *. apply split_dot in E as [_ E]; auto. eapply value_star; eauto.
Qed.

(** ** The known fields *)
Definition objects (K : fields) : Prop := forall f, In f K -> snd f = Some TObject.
Definition starred (S : scope) : Prop := forall x, In x S -> snd x = "*" /\ forall a, fst x = Some a -> ident a = true /\ ~ In (lower a) COLUMN_KEYWORDS.
Definition good (S : scope) (K : fields) : Prop := rep S K /\ objects K /\ starred S.
Lemma good_nil : good [] [].
Proof. split; [apply rep_nil|]. split; intros x []. Qed.
Lemma good_union : forall S S' K K', good S K -> good S' K' -> good (S ++ S') (funion K K').
Proof.
  intros S S' K K' (R & O & T) (R' & O' & T'). split; [apply rep_union; auto|]. split.
  - intros f I. apply funion_In in I as [I|I]; auto.
  - intros x I. apply in_app_or in I as [I|I]; auto.
Qed.
Lemma rep_one : forall x t, plain_entry x -> rep [x] [(enc x, t)].
Proof.
  intros x t P. split; [constructor; [intros []|constructor]|]. split; [intros y [<-|[]]; auto|]. exists [(x, t)]. split; auto. intros f. cbn. reflexivity.
Qed.
Lemma good_table : good [(None, "*")] [star].
Proof.
  split; [apply (rep_one (None, "*")); split; [reflexivity|exact I]|]. split; [intros f [<-|[]]; reflexivity|]. intros x [<-|[]]. split; [reflexivity|]. intros a E. discriminate E.
Qed.
Lemma tables_provides : forall f, tables f -> exists S, provides f S /\ forall x, In x S -> x = (None, "*").
Proof.
  intros f T. induction T.
  - exists [(None, "*")]. split; [constructor|]. intros x [<-|[]]. reflexivity.
  - destruct IHT as (S & P & A). exists S. split; [constructor|]; auto.
  - destruct IHT1 as (S1 & P1 & A1). destruct IHT2 as (S2 & P2 & A2). exists (S1 ++ S2). split; [constructor; auto|]. intros x I. apply in_app_or in I as [I|I]; auto.
Qed.
Lemma named_fields : forall f, named_tables f -> exists S K, provides f S /\ known_fields f = Ok K /\ good S K.
Proof.
  intros f T. induction T.
  - exists [(None, "*")], [star]. split; [constructor|]. split; [reflexivity|apply good_table].
  - destruct (tables_provides e H) as (S & P & A).
    assert (P' : provides (NAlias e (inl a) w) (map (fun x => (Some a, snd x)) S)) by (apply pv_alias; [exact P|apply ident_plain; auto|intros x I; rewrite (A x I); reflexivity]).
    assert (E : known_fields (NAlias e (inl a) w) = Ok [(dot_all a, Some TObject)]) by (cbn [known_fields]; rewrite (tables_fields e H); reflexivity).
    exists (map (fun x => (Some a, snd x)) S), [(dot_all a, Some TObject)]. split; [exact P'|]. split; [exact E|].
    destruct (provides_ok _ _ P') as (K & E' & R). rewrite E in E'. injection E' as <-. split; [exact R|]. split; [intros f [<-|[]]; reflexivity|].
    intros x I. apply in_map_iff in I as (y & <- & I). rewrite (A y I). split; [reflexivity|]. intros b Eb. injection Eb as <-. auto.
  - destruct IHT as (S & K & P & E & G). exists S, K. split; [constructor; auto|]. split; auto. cbn [known_fields]. rewrite E. reflexivity.
  - destruct IHT1 as (S1 & K1 & P1 & E1 & G1). destruct IHT2 as (S2 & K2 & P2 & E2 & G2). exists (S1 ++ S2), (funion K1 K2). split; [constructor; auto|]. split; [|apply good_union; auto].
    cbn [known_fields].
    assert (L : match l with NAlias e a _ => fs <- known_fields e ;; alias_fields (match a with inl s => Ok s | inr _ => Err TypeError end) fs | _ => known_fields l end = Ok K1) by (destruct T1; exact E1).
    assert (Rr : match r with NAlias e a _ => fs <- known_fields e ;; alias_fields (match a with inl s => Ok s | inr _ => Err TypeError end) fs | _ => known_fields r end = Ok K2) by (destruct T2; exact E2).
    rewrite L, Rr. reflexivity.
Qed.
Lemma good_named : forall S K t, good S K -> fnamed t K = true -> (t = "*" /\ open_scope S) \/ exists a, ident a = true /\ ~ In (lower a) COLUMN_KEYWORDS /\ t = dot_all a /\ has_table a S.
Proof.
  intros S K t (R & _ & T) F. destruct (rep_named_inv _ _ _ R F) as ([o w] & I & E). destruct (T _ I) as [W A]. cbn [fst snd] in *. subst w. unfold enc in E. cbn [fst snd] in E.
  destruct o as [a|]; [right; exists a; destruct (A a eq_refl); auto|left; auto].
Qed.
Lemma open_named : forall S K, rep S K -> (fnamed "*" K = true <-> open_scope S).
Proof.
  intros S K R. split.
  - intros F. destruct (rep_named_inv _ _ _ R F) as (x & I & E). apply enc_plain in E; [|reflexivity]. subst x. exact I.
  - intros I. apply (rep_named _ _ _ R I).
Qed.
Lemma table_named : forall S K a, rep S K -> plain a -> (fnamed (dot_all a) K = true <-> has_table a S).
Proof.
  intros S K a R P. split.
  - intros F. destruct (rep_named_inv _ _ _ R F) as (x & I & E). apply enc_dot in E; eauto using rep_entry. subst x. exact I.
  - intros I. apply (rep_named _ _ (Some a, "*") R I).
Qed.
Lemma good_any : forall S S' K, good S K -> rep S' K -> good S' K.
Proof.
  intros S S' K G R. split; [auto|]. split; [apply G|]. intros x I. pose proof (rep_named _ _ _ R I) as F.
  destruct (good_named S K _ G F) as [(E & _)|(a & Ia & Ka & E & _)].
  - apply enc_plain in E; [|reflexivity]. subst x. split; [reflexivity|]. intros a E. discriminate E.
  - apply enc_dot in E; [|eapply rep_entry; eauto|apply ident_plain; auto]. subst x. split; [reflexivity|]. intros b E. injection E as <-. auto.
Qed.
Lemma provides_good : forall f S, named_tables f -> provides f S -> exists K, known_fields f = Ok K /\ good S K.
Proof.
  intros f S T P. destruct (named_fields f T) as (S' & K & _ & E & G). destruct (provides_ok _ _ P) as (K' & E' & R). rewrite E in E'. injection E' as <-. exists K. split; auto. eapply good_any; eauto.
Qed.
Lemma star_free : forall S K v, good S K -> ~ In 42%N v -> fnamed v K = false /\ fmatching v K = [].
Proof.
  intros S K v G N. assert (A : forall f, In f K -> exists u, fst f = u ++ "*" /\ exists u', unqualified (fst f) = u' ++ "*").
  { intros [t y] I. assert (F : fnamed t K = true) by (apply fnamed_In; eauto). destruct (good_named _ _ _ G F) as [(-> & _)|(a & Ia & _ & -> & _)]; cbn [fst].
    - exists []. split; auto. exists []. auto.
    - exists (a ++ "."). split; [unfold dot_all; rewrite <- app_assoc; reflexivity|]. exists []. unfold unqualified, dot_all. change (a ++ ".*") with (a ++ "." ++ "*"). rewrite after_dot_app by (apply ident_plain; auto). reflexivity. }
  split.
  - destruct (fnamed v K) eqn:F; auto. apply fnamed_In in F as (t & I). destruct (A _ I) as (u & E & _). cbn in E. exfalso. apply N. rewrite E. apply in_or_app. right. left. auto.
  - destruct (fmatching v K) as [|f r] eqn:F; auto. exfalso. assert (I : In f (fmatching v K)) by (rewrite F; left; auto). apply filter_In in I as [I Q]. apply str_eqb_eq in Q.
    destruct (A _ I) as (_ & _ & u & E). apply N. rewrite <- Q, E. apply in_or_app. right. left. auto.
Qed.
Lemma resolve_good : forall ord e S K, is_order ord -> wf Ex e = true -> good S K -> exists t, render Tr e = Ok t
  /\ resolve ord e K = if fnamed t K then Ok (Some TObject) else return_type e.
Proof.
  intros ord e S K O W (_ & Ob & _). destruct (good_all e) as (G & _). destruct (G W) as ((u & U & _) & _). exists u. split; auto.
  unfold resolve. destruct (is_select e) eqn:Se; [destruct e; try discriminate Se; discriminate W|]. pose proof (O K) as P.
  assert (F : fnamed u K = match filter (fun f : field => str_eqb (fst f) u) (ord K) with [] => false | _ => true end).
  { destruct (filter (fun f : field => str_eqb (fst f) u) (ord K)) as [|f r] eqn:E.
    - destruct (fnamed u K) eqn:F; auto. apply fnamed_In in F as (t & I). exfalso. assert (X : In (u, t) (filter (fun f : field => str_eqb (fst f) u) (ord K))).
      { apply filter_In. split; [eapply Permutation_in; [|exact I]; first [exact P|apply Permutation_sym; exact P]|cbn; apply str_eqb_refl]. }
      rewrite E in X. destruct X.
    - assert (I : In f (filter (fun f : field => str_eqb (fst f) u) (ord K))) by (rewrite E; left; auto). apply filter_In in I as [I Q]. apply str_eqb_eq in Q. apply fnamed_In. exists (snd f). rewrite <- Q, <- surjective_pairing.
      eapply Permutation_in; [|exact I]; first [exact P|apply Permutation_sym; exact P]. }
  rewrite F. destruct (ord K) as [|x l] eqn:E; [reflexivity|]. rewrite U. cbn [rbind]. destruct (filter (fun f : field => str_eqb (fst f) u) (x :: l)) as [|f r] eqn:Fl; unfold field in *; rewrite Fl; [reflexivity|].
  f_equal. apply Ob. assert (I : In f (filter (fun f : field => str_eqb (fst f) u) (x :: l))) by (unfold field; rewrite Fl; left; auto). apply filter_In in I as [I _]. eapply Permutation_in; [|exact I]; first [exact P|apply Permutation_sym; exact P].
Qed.
Lemma resolve_value : forall ord e y S K, is_order ord -> wf Ex e = true -> good S K -> leads e y -> value_like y \/ is_sel y = true \/ y = NParen [] ->
  resolve ord e K = return_type e.
Proof.
  intros ord e y S K O W G L V. destruct (resolve_good ord e S K O W G) as (t & R & ->). destruct (fnamed t K) eqn:F; auto. exfalso.
  destruct (good_named _ _ _ G F) as [(E & _)|(a & Ia & _ & E & _)]; [eapply value_star; eauto|eapply value_dot; eauto].
Qed.
Lemma bool_good : forall (F B : Prop) ord who e S K, is_order ord -> wf Ex e = true -> good S K -> (forall y, leads e y -> value_like y -> F) ->
  (forall y, leads e y -> is_sel y = true \/ y = NParen [] -> B) -> ans3 F B (bool_errors ord who e K).
Proof.
  intros F B ord who e S K O W G HF HB. unfold bool_errors. destruct (resolve_good ord e S K O W G) as (t & _ & ->). destruct (fnamed t K); [left; cbn; eauto|].
  destruct (rt_cases e) as [[u T]|[[L T]|(x & L & Sx & T)]]; [|right; eapply HB; eauto|right; eapply HB; eauto].
  rewrite T. cbn [rbind]. destruct u; try (left; eexists; split; [reflexivity|left; reflexivity]);
    (destruct (rt_value e _ T) as (y & L & V); [discriminate|discriminate|]; left; eexists; split; [reflexivity|right; eapply HF; eauto]).
Qed.
Definition group_named (v : str) (e : node) : Prop := wraps e (NColumn v) \/ exists q p, wraps e (NString v q p).
Lemma group_good : forall (F B : Prop) exprs e S K, good S K -> (wraps e (NParen []) -> B) ->
  (forall z, wraps e (NInt z) -> (z < 1 \/ Z.of_nat (length exprs) < z)%Z -> F) ->
  (forall v, group_named v e -> ~ In 42%N v) ->
  (forall v, group_named v e -> ~ open_scope S -> (forall x w, ~ In (NAlias x (inl v) w) exprs) -> F) ->
  ans3 F B (group_arg_errors K exprs e).
Proof.
  intros F B exprs e S K G HB HF HN HU. unfold group_arg_errors. destruct (unparen_cases e) as [[W _]|(v & U & W)]; [right; auto|]. rewrite U. cbn [rbind].
  assert (BN : forall u, group_named u e -> ans3 F B (if negb (fnamed u K) && negb (mem u (string_aliases exprs)) && negb (fnamed "*" K)
    then match fmatching u K with [] => Ok ["column """ ++ u ++ """ does not exist"] | [_] => Ok [] | _ => Err AttributeError end else Ok [])).
  { intros u Gu. destruct (star_free S K u G (HN u Gu)) as [-> ->]. cbn [negb andb]. destruct (mem u (string_aliases exprs)) eqn:M; cbn [negb andb]; [left; eauto|].
    destruct (fnamed "*" K) eqn:Fs; cbn [negb]; [left; eauto|]. left. eexists. split; [reflexivity|]. right. apply (HU u Gu).
    - intros X. apply (open_named S K (proj1 G)) in X. congruence.
    - intros x w I. apply aliases_In in I. congruence. }
  destruct v; try (left; eexists; split; [reflexivity|left; reflexivity]).
  - apply BN. left. auto.
  - apply BN. right. eauto.
  - left. destruct (Z.leb_spec z 0); [eexists; split; [reflexivity|]; right; eapply HF; [exact W|lia]|]. cbn [orb].
    destruct (Z.ltb_spec (Z.of_nat (length exprs)) z); [eexists; split; [reflexivity|]; right; eapply HF; [exact W|lia]|eauto].
Qed.

(** ** Decision *)
Definition all_named (n : node) : Prop := on_named_tables n.
Lemma named_below : forall c n, below c n -> all_named n -> all_named c.
Proof. intros c n Bl [A B]. split; [intros s f L; apply A; eapply below_looked; eauto|intros s v L; apply B; eapply below_looked; eauto]. Qed.
Lemma tables_named : forall f, tables f -> named_tables f.
Proof. intros f T. induction T; constructor; auto. Qed.
Lemma named_looked : forall x f, looked x f -> named_tables f -> named_tables x.
Proof.
  intros x f L. induction L; auto; intros T.
  - apply IHL. destruct T; inversion H; subst; [apply tables_named; auto|]. match goal with U : In _ [_] |- _ => destruct U as [<-|[]]; auto end.
  - destruct T; inversion H.
  - destruct T; discriminate H.
Qed.
Lemma named_decided : forall ord f, named_tables f -> forall S K, ans3 (exists x S', seen x S' S f /\ faulty x) False (validate ord K f).
Proof.
  intros ord f T S K. assert (Tb : forall e, tables e -> ans3 (exists x S', seen x S' S e /\ faulty x) False (validate ord K e)).
  { clear. intros f T. induction T.
    - left. exists []. auto.
    - cbn [validate]. apply ans3_rconcat. intros x [<-|[]]. destruct IHT as [(es & E & [Es|(y & S' & L & Fy)])|[]]; left; exists es; split; auto.
      right. exists y, S'. split; auto. eapply sn_part; [|exact L]. constructor. left. auto.
    - left. eexists. split; [reflexivity|]. destruct (mem ty ["CROSS JOIN"; ","]) eqn:M; cbn [negb andb]; [left; auto|].
      destruct on_; [left; auto|]. destruct using_; [left; auto|]. right. eexists _, _. split; [constructor|].
      constructor; intros ->; discriminate M. }
  induction T.
  - left. exists []. auto.
  - cbn [validate]. destruct (Tb e H) as [(es & E & [Es|(y & S' & L & Fy)])|[]]; left; exists es; split; auto.
    right. exists y, S'. split; auto. eapply sn_part; [|exact L]. constructor.
  - cbn [validate]. apply ans3_rconcat. intros x [<-|[]]. destruct IHT as [(es & E & [Es|(y & S' & L & Fy)])|[]]; left; exists es; split; auto.
    right. exists y, S'. split; auto. eapply sn_part; [|exact L]. constructor. left. auto.
  - left. eexists. split; [reflexivity|]. destruct (mem ty ["CROSS JOIN"; ","]) eqn:M; cbn [negb andb]; [left; auto|].
    destruct on_; [left; auto|]. destruct using_; [left; auto|]. right. eexists _, _. split; [constructor|].
    constructor; intros ->; discriminate M.
Qed.
Lemma looked_seen : forall x n, looked x n -> all_named n -> forall S, exists S', seen x S' S n.
Proof.
  intros x n L. induction L as [|a n P L IH|e n P L IH|f n P L IH]; intros A S.
  - exists S. constructor.
  - destruct (IH (named_below _ _ (or_introl P) A) S) as (S' & H). exists S'. eapply sn_part; eauto.
  - destruct (from_of n) as [f|] eqn:E.
    + destruct (named_fields f) as (Sf & K & Pf & _); [eapply (proj1 A); [constructor|exact E]|]. destruct (IH (named_below _ _ (or_intror (or_introl P)) A) (S ++ Sf)) as (S' & H). exists S'. eapply sn_query; eauto.
    + destruct (IH (named_below _ _ (or_intror (or_introl P)) A) S) as (S' & H). exists S'. eapply sn_alone; eauto.
  - destruct (IH (named_below _ _ (or_intror (or_intror P)) A) []) as (S' & H). exists S'. eapply sn_from; eauto.
Qed.
Lemma seen_looked : forall x S' S n, seen x S' S n -> looked x n.
Proof. intros x S' S n H. induction H; [constructor|eapply lk_part|eapply lk_clause|eapply lk_clause|eapply lk_from]; eauto. Qed.
Definition wrong (x : node) (S : scope) : Prop := faulty x \/ unknown x S.

Section Named.
  Variable ord : fields -> fields.
  Hypothesis Ord : is_order ord.
  Ltac got H := let es := fresh "es" in let Ee := fresh "Ee" in destruct H as [(es & -> & Ee)|?]; [|right; assumption].
  (** the fields and the scope of the clauses of a query *)
  Lemma visible_good : forall n S K, all_named n -> good S K -> exists Sf K', from_scope (from_of n) Sf /\ visible K (from_of n) = Ok K' /\ good (S ++ Sf) K'.
  Proof.
    intros n S K A G. destruct (from_of n) as [f|] eqn:E.
    - destruct (named_fields f) as (Sf & Kf & Pf & Ef & Gf); [eapply (proj1 A); [constructor|exact E]|]. exists Sf, (funion K Kf). split; auto. cbn [visible]. rewrite Ef. split; auto. apply good_union; auto.
    - exists [], K. rewrite app_nil_r. cbn. auto.
  Qed.
  Lemma clause_seen : forall n c x S' S Sf, validated_in c n -> from_scope (from_of n) Sf -> seen x S' (S ++ Sf) c -> seen x S' S n.
  Proof.
    intros n c x S' S Sf V Fs H. destruct (from_of n) as [f|] eqn:E; [eapply sn_query; eauto|]. cbn in Fs. subst Sf. rewrite app_nil_r in H. eapply sn_alone; eauto.
  Qed.
  Lemma named_decides : forall n S K, shaped2 n = true -> all_named n -> good S K ->
    ans3 (exists x S', seen x S' S n /\ wrong x S') (exists x, looked x n /\ halts x) (validate ord K n).
  Proof.
    induction n as [n H] using node_inside_ind. intros S K W A G.
    destruct (visible_good n S K A G) as (Sf & K' & Fs & VS & G').
    assert (X : forall c, part c n -> ans3 (exists x S', seen x S' S n /\ wrong x S') (exists x, looked x n /\ halts x) (validate ord K c)).
    { intros c P. assert (Bl : near c n) by (left; auto).
      destruct (H c (below_inside _ _ (near_below _ _ Bl)) S K (near_shaped _ _ W Bl) (named_below _ _ (near_below _ _ Bl) A) G) as [(es & E & [Es|(x & S' & L & Fx)])|(x & L & Hx)].
      - left. eauto.
      - left. exists es. split; auto. right. exists x, S'. split; auto. eapply sn_part; eauto.
      - right. exists x. split; auto. eapply lk_part; eauto. }
    assert (XV : forall c, validated_in c n -> ans3 (exists x S', seen x S' S n /\ wrong x S') (exists x, looked x n /\ halts x) (validate ord K' c)).
    { intros c P. assert (Bl : near c n) by (right; auto).
      destruct (H c (below_inside _ _ (near_below _ _ Bl)) (S ++ Sf) K' (near_shaped _ _ W Bl) (named_below _ _ (near_below _ _ Bl) A) G') as [(es & E & [Es|(x & S' & L & Fx)])|(x & L & Hx)].
      - left. eauto.
      - left. exists es. split; auto. right. exists x, S'. split; auto. eapply clause_seen; eauto.
      - right. exists x. split; auto. eapply lk_clause; eauto. }
    clear H.
    assert (HF : faulty n -> exists x S', seen x S' S n /\ wrong x S') by (intros Q; exists n, S; split; [constructor|left; auto]).
    assert (HU : unknown n S -> exists x S', seen x S' S n /\ wrong x S') by (intros Q; exists n, S; split; [constructor|right; auto]).
    assert (HH : halts n -> exists x, looked x n /\ halts x) by (intros Q; exists n; split; [constructor|auto]).
    assert (XT : forall who e, tested e n -> ans3 (exists x S', seen x S' S n /\ wrong x S') (exists x, looked x n /\ halts x) (bool_errors ord who e K)).
    { intros who e T. eapply bool_good; [exact Ord|eapply tested_wf; eauto|exact G|intros y L V; apply HF; eapply fl_test; eauto|intros y L V; apply HH; right; eauto]. }
    assert (XT' : forall who e, tested e n -> ans3 (exists x S', seen x S' S n /\ wrong x S') (exists x, looked x n /\ halts x) (bool_errors ord who e K')).
    { intros who e T. eapply bool_good; [exact Ord|eapply tested_wf; eauto|exact G'|intros y L V; apply HF; eapply fl_test; eauto|intros y L V; apply HH; right; eauto]. }
    assert (XP : forall l, (forall c, In c l -> part c n) -> ans3 (exists x S', seen x S' S n /\ wrong x S') (exists x, looked x n /\ halts x) (rconcat (validate ord K) l)).
    { intros l I. apply ans3_rconcat. intros c Ic. apply X. auto. }
    assert (XF : forall f, from_of n = Some f -> ans3 (exists x S', seen x S' S n /\ wrong x S') (exists x, looked x n /\ halts x) (validate ord [] f)).
    { intros f E. destruct (named_decided ord f (proj1 A n f (lk_here n) E) [] []) as [(es & Ee & [Es|(x & S' & L & Fx)])|[]]; left; exists es; split; auto. right. exists x, S'. split; [eapply sn_from; eauto|left; auto]. }
    assert (NG : forall v, grouped v n -> ~ In 42%N v) by (intros v; apply (proj2 A); constructor).
    assert (WE : match n with NSelect _ _ _ _ _ _ _ _ _ _ _ _ | NParen _ | NAlias _ _ _ | NJoin _ _ _ _ _ => True
                 | NWith _ _ | NTable _ _ | NUnnest _ _ _ _ | NCombined _ _ _ => True | _ => wf Ex n = true end).
    { unfold shaped2, shaped in W. destruct n; auto; cbn [without_from] in W; destruct (wf Ex _) eqn:E; auto. }
    set (F := exists x S', seen x S' S n /\ wrong x S') in *. set (B := exists x, looked x n /\ halts x) in *. clearbody F B.
    destruct n; try (left; exists []; split; [reflexivity|left; reflexivity]).
    - (* SELECT *) clear WE X XT XP A. unfold shaped2 in W. cbn [without_from] in W. apply shaped_sel in W; auto. cbn [with_semi] in W. rewrite wf_select in W. bools. cbn [from_of] in *.
      assert (E1 : ans3 F B (rconcat (validate ord K') exprs)).
      { apply ans3_rconcat. intros x I. apply XV. constructor. auto. }
      assert (E2 : ans3 F B (ropt (validate ord []) from_)).
      { apply ans3_ropt. intros x ->. apply XF. auto. }
      assert (EC : forall who x, validated_in x (NSelect exprs sel_all sel_distinct distinct_on from_ where_ group having order limit offset semi) ->
        tested x (NSelect exprs sel_all sel_distinct distinct_on from_ where_ group having order limit offset semi) ->
        ans3 F B (a <- validate ord K' x ;; b <- bool_errors ord who x K' ;; Ok (a ++ b))).
      { intros who x Vx T. got (XV x Vx). cbn [rbind]. got (XT' who x T). cbn [rbind]. apply ans3_ok. apply app_or; auto. }
      assert (E3 : ans3 F B (ropt (fun x => a <- validate ord K' x ;; b <- bool_errors ord "WHERE" x K' ;; Ok (a ++ b)) where_)).
      { apply ans3_ropt. intros x ->. apply EC; [apply vi_where|constructor]. }
      assert (E5 : ans3 F B (ropt (fun x => a <- validate ord K' x ;; b <- bool_errors ord "HAVING" x K' ;; Ok (a ++ b)) having)).
      { apply ans3_ropt. intros x ->. apply EC; [apply vi_having|constructor]. }
      assert (E4 : ans3 F B (ropt (fun g : list node * bool * bool => rconcat (group_arg_errors K' exprs) (fst (fst g))) group)).
      { apply ans3_ropt. intros [[args ru] ea] ->. cbn [fst]. apply ans3_rconcat. intros x I.
        assert (GR : forall v, group_named v x -> grouped v (NSelect exprs sel_all sel_distinct distinct_on from_ where_ (Some (args, ru, ea)) having order limit offset semi)).
        { intros v Gv. exists exprs, sel_all, sel_distinct, distinct_on, from_, where_, args, ru, ea, having, order, limit, offset, semi, x. auto. }
        apply (group_good F B exprs x (S ++ Sf) K' G').
        - intros Wx. apply HH. left. eapply sk_group; eauto.
        - intros z Wx Z. apply HF. eapply fl_group; eauto.
        - intros v Gv. apply NG. auto.
        - intros v Gv No Na. apply HU. eapply un_group; eauto. }
      assert (E6 : ans3 F B (ropt (rconcat (fun i => match i with
                  | NOrderItem e _ _ => order_item_errors (Some (length exprs)) e (validate ord K' e)
                  | _ => Err TypeError end)) order)).
      { apply ans3_ropt. intros items ->. apply ans3_rconcat. intros i I. cbn [oall] in *. unfold itemsok in *. bools.
        match goal with U : forallb itemok items = true |- _ => rewrite forallb_forall in U; pose proof (U i I) as Wi end.
        destruct i; try discriminate Wi. apply order3.
        - intros Wr. apply HH. left. eapply sk_order; eauto.
        - intros z Wr Z. apply HF. eapply fl_order; eauto.
        - intros z Wr Z Z'. apply HF. eapply fl_order; eauto.
        - intros NI. apply XV. eapply vi_order; eauto. }
      assert (E7 : ans3 F B (ropt (fun l : bool * option node => match snd l with Some x => count_errors LIMIT_VAR LIMIT_NEG x | None => Err AttributeError end) limit)).
      { apply ans3_ropt. intros [b [x|]] ->; cbn [snd]; [|right; apply HH; left; apply sk_all].
        apply count3; [intros Z; apply HF; apply fl_limit; auto|intros Z; apply HH; left; apply sk_limit; auto]. }
      assert (E8 : ans3 F B (ropt (count_errors OFFSET_VAR OFFSET_NEG) offset)).
      { apply ans3_ropt. intros x ->. apply count3; [intros Z; apply HF; apply fl_offset; auto|intros Z; apply HH; left; apply sk_offset; auto]. }
      clear - VS E1 E2 E3 E4 E5 E6 E7 E8.
      repeat match goal with E : ans3 F B _ |- _ => destruct E as [(? & ? & ?)|?]; [|right; assumption] end.
      left. eexists. split; [eapply select_build; eauto|]. repeat apply app_or; auto.
    - (* call *) apply XP. intros; constructor; auto.
    - (* CAST *) right. apply HH. left. constructor.
    - (* COUNT *) apply XP. intros; constructor; auto.
    - (* ARRAY_AGG *) cbn [validate]. apply X. constructor.
    - (* FILTER *) cbn [validate]. got (X n1 (pt_filter_f _ _)). got (X n2 (pt_filter_c _ _)). cbn [rbind]. apply ans3_ok. apply app_or; auto.
    - (* OVER *) rewrite wf_analytics in WE. bools. cbn [validate]. got (X n (pt_over_f _ _ _ _)). cbn [rbind].
      assert (E1 : ans3 F B (ropt (rconcat (validate ord K)) partition)) by (apply ans3_ropt; intros l ->; apply XP; intros; constructor; auto).
      assert (E2 : ans3 F B (ropt (rconcat (fun i => match i with
                 | NOrderItem e _ _ => order_item_errors None e (validate ord K e)
                 | _ => Err TypeError end)) order)).
      { apply ans3_ropt. intros items ->. apply ans3_rconcat. intros i I. cbn [oall] in *. unfold itemsok in *. bools.
        match goal with U : forallb itemok items = true |- _ => rewrite forallb_forall in U; pose proof (U i I) as Wi end.
        destruct i; try discriminate Wi. apply order3.
        - intros Wr. apply HH. left. eapply sk_over_empty; eauto.
        - intros z Wr Z. apply HF. eapply fl_over; eauto.
        - intros z Wr Z. apply HH. left. eapply sk_over; eauto.
        - intros NI. apply X. eapply pt_over_o; eauto. }
      got E1. got E2. cbn [rbind]. apply ans3_ok. repeat apply app_or; auto.
    - (* column *) cbn [validate]. apply ans3_ok. unfold column_errors. destruct (str_eqb v "*") eqn:Ev; [cbn [negb]; rewrite andb_false_r; auto|]. apply str_eqb_neq in Ev.
      destruct (fnamed "*" K) eqn:Fk; [cbn [negb]; rewrite andb_false_r; auto|]. right. apply HU. constructor; auto. intros Op. apply (open_named S K (proj1 G)) in Op. congruence.
    - (* dotted *) rewrite wf_chained in WE. bools. cbn [validate]. unfold chained_errors.
      destruct (good_all n1) as (G1 & _). destruct (G1 ltac:(assumption)) as ((u1 & U1 & _) & _). rewrite U1. cbn [rbind].
      destruct (good_all n2) as (G2 & _). destruct (G2 ltac:(assumption)) as ((u2 & U2 & _) & _). rewrite U2. cbn [rbind].
      rewrite render_str, U2; [|assumption|].
      2: { match goal with U : _ || _ = true |- _ => apply orb_true_iff in U as [U|U]; [apply Nat.leb_le in U; lia|destruct n2; try discriminate U; cbn; destruct n2; lia] end. }
      cbn [rbind]. destruct (negb (fnamed (u1 ++ "." ++ u2) K) && negb (fnamed (u1 ++ ".*") K) && negb (fnamed "*" K)) eqn:E; apply ans3_ok; auto.
      right. apply HU. rewrite !andb_true_iff, !negb_true_iff in E. destruct E as [[_ Ed] Es]. constructor.
      + intros a Ha ->. destruct G as (R & _ & St). destruct (St _ Ha) as [_ Ia]. destruct (Ia a eq_refl) as [Ia' Ka].
        rewrite render_NColumn in U1. cbn [rbind Render.finish] in U1. injection U1 as U1. unfold column_text in U1.
        assert (M : mem a COLUMN_KEYWORDS = false). { apply mem_false. intros M. apply Ka. apply lower_kw. auto. }
        rewrite M in U1. subst u1. apply (table_named S K a R (ident_plain a Ia')) in Ha. unfold dot_all in Ha. congruence.
      + intros Op. apply (open_named S K (proj1 G)) in Op. congruence.
    - (* parentheses *) apply XP. intros; constructor; auto.
    - (* alias *) cbn [validate]. apply X. constructor.
    - (* join *) left. eexists. split; [reflexivity|]. destruct (mem ty ["CROSS JOIN"; ","]) eqn:M; cbn [negb andb]; [left; auto|].
      destruct on_; [left; auto|]. destruct using_; [left; auto|]. right. apply HF. constructor; intros ->; discriminate M.
    - (* comparison *) rewrite wf_cond in WE. bools. cbn [validate]. got (X n1 (pt_cond_l _ _ _)). cbn [rbind].
      destruct (str_eqb (lower pred) "between") eqn:Bt.
      + apply str_eqb_eq in Bt. destruct n2; try discriminate.
        got (X n2_1 (pt_between_l _ _ _ _ _ Bt)). got (X n2_2 (pt_between_r _ _ _ _ _ Bt)). cbn [rbind]. apply ans3_ok. repeat apply app_or; auto.
      + apply str_eqb_neq in Bt. got (X n2 (pt_cond_r _ _ _ Bt)). cbn [rbind]. apply ans3_ok. apply app_or; auto.
    - (* AND, OR *) cbn [validate].
      got (X n1 (pt_bool_l _ _ _)). cbn [rbind]. got (XT (upper ty) n1 (te_left _ _ _)). cbn [rbind].
      got (X n2 (pt_bool_r _ _ _)). cbn [rbind]. got (XT (upper ty) n2 (te_right _ _ _)). cbn [rbind]. apply ans3_ok. repeat apply app_or; auto.
    - (* REPLACE *) rewrite wf_replace in WE. bools. cbn [validate]. apply ans3_rconcat. intros x I.
      match goal with U : forallb argok args = true, U' : forallb as_alias args = true |- _ => rewrite forallb_forall in U, U'; pose proof (U x I) as Ax; pose proof (U' x I) as Bx end.
      destruct x; try discriminate Bx. destruct with_as; try discriminate Bx. unfold argok in Ax. cbn [is_sel] in Ax. bools.
      match goal with U : wf Ex (NAlias _ _ _) = true |- _ => rewrite wf_alias in U end. bools. cbn [aliasok] in *. destruct alias as [t|y]; [discriminate|].
      apply X. eapply pt_replace; eauto.
  Qed.

  (** ** And each of them is noticed *)
  Lemma visible_any : forall n S K Sf, all_named n -> good S K -> from_scope (from_of n) Sf -> exists K', visible K (from_of n) = Ok K' /\ good (S ++ Sf) K'.
  Proof.
    intros n S K Sf A G Fs. destruct (from_of n) as [f|] eqn:E; cbn [from_scope] in Fs.
    - destruct (provides_good f Sf) as (Kf & Ef & Gf); [eapply (proj1 A); [constructor|exact E]|exact Fs|]. exists (funion K Kf). cbn [visible]. rewrite Ef. split; auto. apply good_union; auto.
    - subst Sf. exists K. rewrite app_nil_r. auto.
  Qed.
  Lemma seen_good : forall x S' S n, seen x S' S n -> shaped2 n = true -> all_named n -> forall K es, good S K -> validate ord K n = Ok es ->
    (shaped2 x = true /\ all_named x /\ exists K' es', good S' K' /\ validate ord K' x = Ok es' /\ incl es' es)
    \/ (named_tables x /\ exists K' es', validate ord K' x = Ok es' /\ incl es' es).
  Proof.
    intros x S' S n H. induction H as [|S a n P H IH|S e n P Fn H IH|S Sf f e n P Fn Pf H IH|S f n P H IH]; intros W A K es G V.
    - left. split; auto. split; auto. exists K, es. auto using incl_refl.
    - destruct (part_errors _ _ _ _ _ P V) as (es1 & E1 & I1).
      destruct (IH (near_shaped _ _ W (or_introl P)) (named_below _ _ (or_introl P) A) _ _ G E1) as [(Sh & An & K' & es' & G' & E' & I')|(T & K' & es' & E' & I')];
        [left; split; auto; split; auto; exists K', es'; split; auto|right; split; auto; exists K', es']; (split; [auto|eapply incl_tran; eauto]).
    - destruct (validated_errors _ _ _ _ _ P V) as (K1 & es1 & Vi & E1 & I1). destruct (visible_any n S K []) as (K2 & V2 & G2); [auto|auto|rewrite Fn; reflexivity|]. rewrite V2 in Vi. injection Vi as <-. rewrite app_nil_r in G2.
      destruct (IH (near_shaped _ _ W (or_intror P)) (named_below _ _ (or_intror (or_introl P)) A) _ _ G2 E1) as [(Sh & An & K' & es' & G' & E' & I')|(T & K' & es' & E' & I')];
        [left; split; auto; split; auto; exists K', es'; split; auto|right; split; auto; exists K', es']; (split; [auto|eapply incl_tran; eauto]).
    - destruct (validated_errors _ _ _ _ _ P V) as (K1 & es1 & Vi & E1 & I1). destruct (visible_any n S K Sf) as (K2 & V2 & G2); [auto|auto|rewrite Fn; exact Pf|]. rewrite V2 in Vi. injection Vi as <-.
      destruct (IH (near_shaped _ _ W (or_intror P)) (named_below _ _ (or_intror (or_introl P)) A) _ _ G2 E1) as [(Sh & An & K' & es' & G' & E' & I')|(T & K' & es' & E' & I')];
        [left; split; auto; split; auto; exists K', es'; split; auto|right; split; auto; exists K', es']; (split; [auto|eapply incl_tran; eauto]).
    - right. assert (T : named_tables f) by (eapply (proj1 A); [constructor|exact P]). split; [eapply named_looked; [eapply seen_looked; exact H|exact T]|].
      eapply looked_errors; [|exact V]. eapply lk_from; [exact P|]. eapply seen_looked; eauto.
  Qed.
  Lemma tested_good : forall e x S K es, tested e x -> all_named x -> good S K -> validate ord K x = Ok es ->
    exists who S' K' es', good S' K' /\ bool_errors ord who e K' = Ok es' /\ incl es' es.
  Proof.
    intros e x S K es T A G V. destruct (visible_good x S K A G) as (Sf & K' & _ & VS & G'). destruct T.
    - apply select_parts in V as (K1 & e1 & e2 & e3 & e4 & e5 & e6 & e7 & e8 & H0' & H1' & H2' & H3' & H4' & H5' & H6' & H7' & H8' & ->).
      cbn [from_of] in VS. rewrite VS in H0'. injection H0' as <-. cbn [ropt] in H3'. inv_bind H3'. inv_bind H3'. injection H3' as <-. eexists _, _, K', _. split; [exact G'|]. split; [eassumption|].
      intros m I. rewrite !in_app_iff. auto.
    - apply select_parts in V as (K1 & e1 & e2 & e3 & e4 & e5 & e6 & e7 & e8 & H0' & H1' & H2' & H3' & H4' & H5' & H6' & H7' & H8' & ->).
      cbn [from_of] in VS. rewrite VS in H0'. injection H0' as <-. cbn [ropt] in H5'. inv_bind H5'. inv_bind H5'. injection H5' as <-. eexists _, _, K', _. split; [exact G'|]. split; [eassumption|].
      intros m I. rewrite !in_app_iff. auto 10.
    - cbn [validate] in V. do 4 inv_bind V. injection V as <-. eexists _, S, K, _. split; [exact G|]. split; [eassumption|]. intros m I. rewrite !in_app_iff. auto.
    - cbn [validate] in V. do 4 inv_bind V. injection V as <-. eexists _, S, K, _. split; [exact G|]. split; [eassumption|]. intros m I. rewrite !in_app_iff. auto.
  Qed.
  Lemma halts_named : forall x S K es, halts x -> shaped2 x = true -> all_named x -> good S K -> validate ord K x <> Ok es.
  Proof.
    intros x S K es [Sx|(e & y & T & L & Q)] W A G V; [eapply stuck_raises; eauto|].
    destruct (tested_good _ _ _ _ _ T A G V) as (who & S' & K' & es' & G' & E & _). unfold bool_errors in E.
    rewrite (resolve_value ord e y S' K' Ord (tested_wf _ _ T W) G' L (or_intror Q)) in E. destruct Q as [Q|Q].
    - rewrite (rt_query _ _ L Q) in E. discriminate E.
    - rewrite (empty_rt _ _ L Q) in E. discriminate E.
  Qed.
  Lemma wrong_tables : forall x S K es, named_tables x -> wrong x S -> validate ord K x = Ok es -> es <> [].
  Proof.
    intros x S K es T [Fx|Ux] V; [|destruct Ux; inversion T]. destruct Fx; try (inversion T; fail).
    - destruct H; inversion T.
    - rewrite join_errors in V. destruct (mem ty ["CROSS JOIN"; ","]) eqn:M; [apply mem_In in M; destruct M as [<-|[<-|[]]]; congruence|injection V as <-; discriminate].
  Qed.
  Lemma faulty_named : forall x S K es, faulty x -> shaped2 x = true -> all_named x -> good S K -> validate ord K x = Ok es -> es <> [].
  Proof.
    intros x S K es Fx W A G V.
    assert (O : forall m, origin m x -> clause_message m -> es <> []).
    { intros m Om C. apply clause_not in C as [N T]. intros ->. destruct (looked_reported _ _ _ _ _ _ V (lk_here x) Om N T). }
    assert (NI : forall e, (exists z, wraps e (NInt z)) \/ forall z, ~ wraps e (NInt z)).
    { intros e. destruct (unparen_cases e) as [[_ U]|(v & U & Wv)].
      - right. intros z X. apply wraps_unparen in X. rewrite U in X. discriminate X.
      - assert (D : (exists z, v = NInt z) \/ forall z, v <> NInt z) by (destruct v; try (right; discriminate); left; eauto). destruct D as [[z ->]|D]; [left; eauto|].
        right. intros z X. apply wraps_unparen in X. rewrite U in X. cbn in X. injection X as X. eapply D; eauto. }
    assert (BP : forall n z, (z < 1 \/ Z.of_nat n < z)%Z -> bad_position n z = true) by (intros n z Z; rewrite bad_position_spec; lia).
    destruct Fx.
    - destruct (tested_good _ _ _ _ _ H A G V) as (who & S' & K' & es' & G' & E & I). unfold bool_errors in E.
      rewrite (resolve_value ord e y S' K' Ord (tested_wf _ _ H W) G' H0 (or_introl H1)) in E. destruct (value_rt _ _ H0 H1) as (t & T & N1 & N2). rewrite T in E. cbn [rbind] in E.
      intros ->. destruct t; try congruence; injection E as <-; destruct (I _ (or_introl eq_refl)).
    - destruct (NI e) as [[z Z]|N]; [eapply O; [eapply or_limit_neg; eauto|constructor]|eapply O; [apply or_limit; auto|constructor]].
    - destruct (NI e) as [[z Z]|N]; [eapply O; [eapply or_offset_neg; eauto|constructor]|eapply O; [apply or_offset; auto|constructor]].
    - eapply O; [eapply or_group_position; eauto|constructor].
    - eapply O; [eapply or_order_position; eauto|constructor].
    - eapply O; [eapply or_over_position; eauto; lia|constructor].
    - eapply O; [apply or_join; auto|constructor].
  Qed.
  Lemma unknown_named : forall x S K es, unknown x S -> shaped2 x = true -> all_named x -> good S K -> validate ord K x = Ok es -> es <> [].
  Proof.
    intros x S K es Ux W A G V. destruct Ux.
    - cbn [validate] in V. injection V as <-. unfold shaped2, shaped in W. cbn [without_from] in W.
      assert (Iv : ident v = true). { cbn [wf is_sel] in W. apply str_eqb_neq in H. rewrite H, orb_false_r in W. destruct (ident v); auto. }
      unfold column_errors. destruct (star_free S K v G) as [-> ->]; [apply (not_char v 42%N Iv eq_refl)|].
      apply str_eqb_neq in H. rewrite H. destruct (fnamed "*" K) eqn:Fk; [apply (open_named S K (proj1 G)) in Fk; contradiction|]. discriminate.
    - assert (WE : wf Ex (NChained l r) = true) by (unfold shaped2, shaped in W; cbn [without_from] in W; destruct (wf Ex (NChained l r)); auto). rewrite wf_chained in WE. bools.
      cbn [validate] in V. unfold chained_errors in V. inv_bind V. inv_bind V.
      assert (TN : forall b, ident b = true -> ~ In (lower b) COLUMN_KEYWORDS -> has_table b S -> a <> b).
      { intros b Ib Kb Hb' ->. apply (H b Hb'). apply text_name; auto; match goal with |- lvl l = 0 => match goal with U : (lvl l <=? 0) = true |- _ => apply Nat.leb_le in U; lia | U : lvl l <= 0 |- _ => lia end | |- is_number l = false => destruct (is_number l); auto; discriminate | _ => idtac end. }
      assert (N1 : fnamed (a ++ "." ++ a0) K = false).
      { destruct (fnamed (a ++ "." ++ a0) K) eqn:F; auto. exfalso. destruct (good_named _ _ _ G F) as [(E & _)|(b & Ib & Kb & E & Hb')]; [eapply dot_star; exact E|]. apply split_dot in E as [E _]; auto. eapply TN; eauto. }
      assert (N2 : fnamed (a ++ ".*") K = false).
      { destruct (fnamed (a ++ ".*") K) eqn:F; auto. exfalso. destruct (good_named _ _ _ G F) as [(E & _)|(b & Ib & Kb & E & Hb')]; [eapply dot_star; exact E|]. change (a ++ ".*") with (a ++ "." ++ "*") in E. apply split_dot in E as [E _]; auto. eapply TN; eauto. }
      rewrite N1, N2 in V. destruct (fnamed "*" K) eqn:Fk; [apply (open_named S K (proj1 G)) in Fk; contradiction|]. cbn [negb andb] in V. inv_bind V. injection V as <-. discriminate.
    - destruct (visible_any _ S K Sf A G H0) as (K' & Vi & G'). destruct H as (exprs' & a' & d' & don' & f' & w' & args & ru & ea & h' & o' & l' & off' & semi' & arg & E & Ia & Gv). injection E as <- <- <- <- <- <- -> <- <- <- <- <-.
      assert (Sv : ~ In 42%N v). { apply (proj2 A (NSelect exprs a d don f w (Some (args, ru, ea)) h o l off s)); [constructor|]. exists exprs, a, d, don, f, w, args, ru, ea, h, o, l, off, s, arg. auto. }
      apply select_parts in V as (K1 & e1 & e2 & e3 & e4 & e5 & e6 & e7 & e8 & H0' & H1' & H2' & H3' & H4' & H5' & H6' & H7' & H8' & ->). cbn [from_of] in Vi. rewrite Vi in H0'. injection H0' as <-.
      cbn [ropt fst] in H4'. destruct (rconcat_each _ _ _ _ H4' Ia) as [ex E].
      assert (M : In ("column """ ++ v ++ """ does not exist") ex).
      { assert (Mv : mem v (string_aliases exprs) = false).
        { apply mem_false. intros I. unfold string_aliases in I. apply in_flat_map in I as (x & Ix & I). destruct x; try contradiction. destruct alias; try contradiction. destruct I as [->|[]]. eapply H2, Ix. }
        assert (Fk : fnamed "*" K' = false) by (destruct (fnamed "*" K') eqn:Fk; auto; apply (open_named _ K' (proj1 G')) in Fk; contradiction).
        destruct (star_free _ K' v G' Sv) as [F1 F2]. unfold group_arg_errors in E.
        destruct Gv as [Gv|(q & p & Gv)]; rewrite (wraps_unparen _ _ Gv) in E; cbn [unparen rbind] in E; rewrite F1, F2, Mv, Fk in E; cbn [negb andb] in E; injection E as <-; left; auto. }
      assert (M' : In ("column """ ++ v ++ """ does not exist") e4) by (eapply rconcat_In; [exact H4'|exact Ia|exact E|exact M]).
      intros Z. repeat (apply app_eq_nil in Z as [? Z]). subst e4. destruct M'.
  Qed.
End Named.

Lemma looked_named : forall x n, looked x n -> all_named n -> all_named x.
Proof. intros x n L [A B]. split; [intros s f Ls; apply A; eapply looked_trans; eauto|intros s v Ls; apply B; eapply looked_trans; eauto]. Qed.
Lemma named_halts : forall ord, is_order ord -> forall n es, shaped2 n = true -> all_named n -> validate ord [] n = Ok es -> ~ exists x, looked x n /\ halts x.
Proof.
  intros ord O n es Sh A V (x & L & Hx). destruct (looked_seen x n L A []) as (S' & Se). destruct (seen_good ord x S' [] n Se Sh A _ _ good_nil V) as [(Shx & Ax & K' & es' & G' & E & _)|(T & _)].
  - eapply halts_named; eauto.
  - destruct Hx as [Sx|(e & y & Te & _)]; [destruct Sx|destruct Te]; inversion T.
Qed.
Lemma named_wrong : forall ord, is_order ord -> forall n es, shaped2 n = true -> all_named n -> validate ord [] n = Ok es -> (exists x S, seen x S [] n /\ (faulty x \/ unknown x S)) -> es <> [].
Proof.
  intros ord O n es Sh A V (x & S' & Se & Wr) ->. destruct (seen_good ord x S' [] n Se Sh A _ _ good_nil V) as [(Shx & Ax & K' & es' & G' & E & I)|(T & K' & es' & E & I)]; apply incl_l_nil in I; subst es'.
  - destruct Wr as [Fx|Ux]; [eapply faulty_named in E; eauto|eapply unknown_named in E; eauto].
  - eapply wrong_tables in E; eauto.
Qed.
Lemma named_answer : forall q n ord, is_order ord -> parse_sql q = Ok n -> is_sel n = true -> statement (without_from n) = true -> on_named_tables n ->
  ((exists e, fst (q_is_valid ord (new_query q)) = Err e) <-> exists x, looked x n /\ halts x)
  /\ (fst (q_is_valid ord (new_query q)) = Ok false <-> (~ exists x, looked x n /\ halts x) /\ exists x S, seen x S [] n /\ (faulty x \/ unknown x S))
  /\ (fst (q_is_valid ord (new_query q)) = Ok true <-> (~ exists x, looked x n /\ halts x) /\ ~ exists x S, seen x S [] n /\ (faulty x \/ unknown x S)).
Proof.
  intros q n ord O P S W A.
  assert (Sh : shaped2 n = true) by (unfold shaped2, shaped; unfold statement in W; rewrite W; destruct n; try discriminate S; apply orb_true_r).
  pose proof (named_decides ord O n [] [] Sh A good_nil) as D. unfold wrong in D.
  assert (HH : forall es, validate ord [] n = Ok es -> ~ exists x, looked x n /\ halts x) by (intros es; apply named_halts; auto).
  assert (HF : forall es, validate ord [] n = Ok es -> (exists x S, seen x S [] n /\ (faulty x \/ unknown x S)) -> es <> []) by (intros es; eapply named_wrong; eauto).
  destruct (validate ord [] n) as [es|e] eqn:V.
  - assert (Q : fst (q_is_valid ord (new_query q)) = Ok (match es with [] => true | _ => false end)).
    { rewrite (errors_is_valid q ord es); [reflexivity|]. unfold errors_of. rewrite P. cbn [rbind]. destruct n; try discriminate S. cbn [validate_top]. exact V. }
    rewrite Q. specialize (HH es eq_refl). specialize (HF es eq_refl). destruct D as [(es' & E & Ds)|D]; [injection E as <-|contradiction].
    split; [split; [intros (e & E); discriminate E|intros X; contradiction]|]. destruct es as [|m es].
    + split; split; intros X; try discriminate X; auto; [destruct X as [_ X]; destruct (HF X); auto|split; auto; intros Y; destruct (HF Y); auto].
    + destruct Ds as [Ds|Ds]; [discriminate Ds|]. split; split; intros X; try discriminate X; auto. destruct X as [_ X]. contradiction.
  - destruct D as [(es & E & _)|D]; [discriminate E|].
    assert (Q : fst (q_is_valid ord (new_query q)) = Err e).
    { pose proof (validate_exn ord n []) as X. rewrite V in X; auto. unfold q_is_valid, q_validate, get_ast, new_query. cbn [q_validated q_ast q_sql q_errors].
      rewrite P. destruct n; try discriminate S. cbn [rbind validate_top]. rewrite V; auto. cbn in X. destruct e; try reflexivity. exfalso. clear -X. cbn in X. intuition discriminate. }
    rewrite Q. split; [split; eauto|]. split; split; intros X; try discriminate X; destruct X as [X _]; contradiction.
Qed.

(** ** A decision procedure, for examples *)
Fixpoint named_tablesb (f : node) : bool :=
  match f with
  | NTable _ _ => true
  | NAlias e (inl a) _ => tablesb e && ident a && negb (mem (lower a) COLUMN_KEYWORDS)
  | NParen [a] => named_tablesb a
  | NJoin _ l r _ _ => named_tablesb l && named_tablesb r
  | _ => false
  end.
Lemma named_tablesb_ok : forall f, named_tablesb f = true -> named_tables f.
Proof.
  induction f as [f IH] using node_ind'. intros T. destruct f; try discriminate T.
  - destruct args as [|a [|b r]]; try discriminate T. constructor. apply IH; [cbn; auto|exact T].
  - destruct alias; try discriminate T. cbn [named_tablesb] in T. apply andb_true_iff in T as [T1 T2]. apply andb_true_iff in T1 as [T0 T1]. apply tablesb_ok in T0. apply negb_true_iff in T2. apply mem_false in T2. constructor; auto.
  - constructor.
  - cbn [named_tablesb] in T. apply andb_true_iff in T as [T1 T2]. constructor; apply IH; cbn; auto.
Qed.
Definition on_named_tablesb (n : node) : bool :=
  forallb (fun s => match from_of s with Some f => named_tablesb f | None => true end && forallb (fun v => negb (has 42 v)) (grouped_in s)) (all_parts n).
Lemma on_named_tablesb_ok : forall n, on_named_tablesb n = true -> on_named_tables n.
Proof.
  intros n H. unfold on_named_tablesb in H. rewrite forallb_forall in H.
  assert (A : forall s, looked s n -> match from_of s with Some f => named_tablesb f | None => true end = true /\ forallb (fun v => negb (has 42 v)) (grouped_in s) = true).
  { intros s L. apply looked_occurs in L. apply parts_ok with (k := size n) in L; auto. apply H in L. apply andb_true_iff in L. exact L. }
  split.
  - intros s f L E. apply A in L as [L _]. rewrite E in L. apply named_tablesb_ok. auto.
  - intros s v L G I. apply A in L as [_ L]. rewrite forallb_forall in L. apply grouped_in_ok in G. apply L in G. apply has_In in I. rewrite I in G. discriminate G.
Qed.
