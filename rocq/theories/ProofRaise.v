(** Which exceptions the parser raises, by induction over all parser functions. *)
From Verif Require Import PyStr PyFloat Lib Tokeniser Ast Parser Render Validate Api SpecTok ProofTok ProofTok2 ProofTok3 ProofTerm ProofParse SpecRaise.
Local Open Scope str_scope.
Local Open Scope list_scope.

Definition post {A} (E : exn -> Prop) (Q : A -> Prop) (r : R A) : Prop :=
  match r with Ok a => Q a | Err e => E e end.
Lemma post_bind : forall {A B} E (Q : A -> Prop) (Q' : B -> Prop) r f,
  post E Q r -> (forall x, Q x -> post E Q' (f x)) -> post E Q' (rbind r f).
Proof. intros A B E Q Q' [x|e] f H1 H2; cbn in *; auto. Qed.
Lemma post_weak : forall {A} (E : exn -> Prop) (Q Q' : A -> Prop) r, post E Q r -> (forall x, Q x -> Q' x) -> post E Q' r.
Proof. intros A E Q Q' [x|e] H1 H2; cbn in *; auto. Qed.

(** Results whose tokens all satisfy [tk] *)
Definition otk (tk : str -> Prop) (o : option str) : Prop := match o with Some t => tk t | None => True end.
Definition qm (tk : str -> Prop) (x : str * list str) : Prop := tk (fst x) /\ Forall tk (snd x).
Definition qo (tk : str -> Prop) (x : option str * list str) : Prop := otk tk (fst x) /\ Forall tk (snd x).
Definition qr {A} (tk : str -> Prop) (x : A * list str) : Prop := Forall tk (snd x).
Definition ql (tk : str -> Prop) (x : list str * list str) : Prop := Forall tk (fst x) /\ Forall tk (snd x).
Definition qe {A} (tk : str -> Prop) (x : A * option str * list str) : Prop :=
  otk tk (snd (fst x)) /\ Forall tk (snd x).
Definition qa (tk : str -> Prop) (x : list str * option str * list str) : Prop :=
  Forall tk (fst (fst x)) /\ otk tk (snd (fst x)) /\ Forall tk (snd x).
Definition qt {A} (x : A) : Prop := True.

(** [E] allows every exception the tokens [tk] account for *)
Record world (tk : str -> Prop) (E : exn -> Prop) : Prop := {
  w_fuel : E OutOfFuel;
  w_stop : E StopIteration;
  w_assert : forall t, tk t -> In (lower t) ["["; "case"; "cast"; "array_agg"; "filter"; "replace"; "with"; "unnest"] -> E AssertionError;
  w_quote : forall t, tk t -> In (lower t) ["'"; """"; "`"] -> E ValueError;
  w_limit : forall t, tk t -> In (lower t) ["array_agg"] -> E ValueError;
  w_number : forall t, tk t -> dotted_number t -> E ValueError;
  w_index : forall t, tk t -> In (lower t) ["filter"; "union"; "intersect"; "except"; "all"] -> E IndexError;
  w_with : forall t, tk t -> In (lower t) ["with"] -> E (ParsingError "");
  w_paren : forall t, tk t -> In (lower t) ["over"; "except"; "replace"] -> E (ParsingError "expected '('");
  w_and : forall t, tk t -> In (lower t) ["between"] -> E (ParsingError "expected AND");
  w_partition : forall t u, tk t -> In (lower t) ["over"] -> tk u -> In (lower u) ["partition"] ->
    E (ParsingError "Missing BY after PARTITION");
  w_order : forall t, tk t -> In (lower t) ["order"] -> E (ParsingError "Missing BY after ORDER");
  w_group : forall t, tk t -> In (lower t) ["group"] -> E (ParsingError "Missing BY after GROUP") }.
Definition eok (E : exn -> Prop) (eos : option exn) : Prop := match eos with Some e => E e | None => True end.

Lemma olow_is_true : forall o s, olow_is o s = true -> exists t, o = Some t /\ lower t = s.
Proof. intros [t|] s H; cbn in H; [|discriminate]. exists t. split; auto. apply str_eqb_eq, H. Qed.
Lemma olow_in_true : forall o l, olow_in o l = true -> exists t, o = Some t /\ In (lower t) l.
Proof. intros [t|] s H; cbn in H; [|discriminate]. exists t. split; auto. apply mem_In, H. Qed.
Lemma quotes_low : forall t, mem t QUOTES = true -> In (lower t) ["'"; """"; "`"].
Proof. intros t H. apply mem_In in H. cbn in H. destruct H as [<-|[<-|[<-|[]]]]; cbn; auto. Qed.
Lemma quotes_in : forall t, mem (lower t) QUOTES = true -> In (lower t) ["'"; """"; "`"].
Proof. intros t H. apply mem_In in H. exact H. Qed.

(** ** Reading tokens *)
Lemma p_next_opt : forall tk E eos ts, world tk E -> eok E eos -> Forall tk ts -> post E (qo tk) (next_opt eos ts).
Proof. intros tk E eos [|t r] W H F; cbn; [destruct eos; cbn; auto; split; cbn; auto|inversion F; split; cbn; auto]. Qed.
Lemma p_next_req : forall tk E eos ts, world tk E -> eok E eos -> Forall tk ts -> post E (qm tk) (next_req eos ts).
Proof. intros tk E eos [|t r] W H F; cbn; [destruct eos; cbn; auto; apply (w_stop _ _ W)|inversion F; split; cbn; auto]. Qed.
Lemma p_until_close_loop : forall tk E eos ts d, world tk E -> eok E eos -> Forall tk ts -> post E (ql tk) (until_close_loop eos d ts).
Proof.
  intros tk E eos ts d W H. revert d. induction ts as [|t r IH]; intros d F; cbn [until_close_loop].
  { destruct eos; cbn; auto. split; auto. }
  inversion F as [|? ? H1 H2]; subst. destruct (_ && _); [split; cbn; auto|]. cbv zeta.
  eapply post_bind; [apply IH; auto|]. intros [a b] [X Y]. split; cbn in *; auto.
Qed.
Lemma p_until_close : forall tk E eos first ts, world tk E -> eok E eos -> otk tk first -> Forall tk ts -> post E (ql tk) (until_close eos first ts).
Proof.
  intros tk E eos first ts W H O F. apply p_until_close_loop; auto. destruct first as [[|c s]|]; auto.
Qed.
Lemma p_until_loop : forall tk E eos stop keep ts p s c prev, world tk E -> eok E eos -> Forall tk ts -> post E (qa tk) (until_loop eos stop keep p s c prev ts).
Proof.
  intros tk E eos stop keep ts p s c prev W H. revert p s c prev. induction ts as [|t r IH]; intros p s c prev F; cbn [until_loop].
  { destruct eos; cbn; auto. repeat split; auto. }
  inversion F as [|? ? H1 H2]; subst. destruct (_ && _); [repeat split; cbn; auto|].
  match goal with |- post _ _ (let '(_, _) := ?x in _) => destruct x as [[? ?] ?] end.
  eapply post_bind; [apply IH; auto|]. intros [[a b] d] [X [Y Z]]. repeat split; cbn in *; auto.
Qed.
Lemma p_until_one_of : forall tk E eos stop first keep ts, world tk E -> eok E eos -> otk tk first -> Forall tk ts ->
  post E (qa tk) (until_one_of eos stop first keep ts).
Proof.
  intros tk E eos stop first keep ts W H O F. unfold until_one_of. cbv zeta.
  eapply post_bind; [apply p_until_loop; eauto|]. intros [[a b] d] [X [Y Z]]. repeat split; cbn in *; auto.
  destruct first; auto.
Qed.
Lemma p_until_not_in : forall tk E eos kept first ts, world tk E -> eok E eos -> otk tk first -> Forall tk ts ->
  post E (qa tk) (until_not_in eos kept first ts).
Proof.
  intros tk E eos kept first ts W H O F. unfold until_not_in.
  assert (L : post E (qa tk) (until_not_in_loop eos kept ts)).
  { clear O. induction ts as [|t r IH]; cbn [until_not_in_loop]; [destruct eos; cbn; auto; repeat split; auto|].
    inversion F as [|? ? H1 H2]; subst. destruct (mem (lower t) kept); [|repeat split; cbn; auto].
    eapply post_bind; [apply IH; auto|]. intros [[a b] d] [X [Y Z]]. repeat split; cbn in *; auto. }
  eapply post_bind; [exact L|]. intros [[a b] d] [X [Y Z]]. repeat split; cbn in *; auto.
  destruct first; auto.
Qed.
Lemma p_rassert : forall (E : exn -> Prop) b, E AssertionError -> post E (@qt unit) (rassert b).
Proof. intros E [] H; cbn; auto. exact I. Qed.
Lemma p_py_int : forall (E : exn -> Prop) s, E ValueError -> post E (@qt Z) (py_int s).
Proof. intros E s H. unfold py_int. cbv zeta. match goal with |- post _ _ (let '(_, _) := ?x in _) => destruct x end. destruct (digits_us _ _); cbn; [exact I|auto]. Qed.
Lemma split_two : forall c s a b l, split c s = a :: b :: l -> exists x s', s = x ++ [c] ++ s' /\ split c s' = b :: l.
Proof.
  intros c s. induction s as [|d s IH]; intros a b l H; cbn in H; [discriminate|].
  destruct (N.eqb_spec d c) as [->|].
  - injection H as _ H. exists [], s. auto.
  - destruct (split c s) as [|p [|p' ps]] eqn:S; try discriminate. injection H as _ <- <-.
    destruct (IH p p' ps eq_refl) as [x [s' [-> Y]]]. exists (d :: x), s'. auto.
Qed.
Lemma split_three : forall c s a b r l, split c s = a :: b :: r :: l -> exists x y z, s = x ++ [c] ++ y ++ [c] ++ z.
Proof.
  intros c s a b r l H. apply split_two in H. destruct H as [x [s' [-> H]]]. apply split_two in H.
  destruct H as [y [z [-> H]]]. exists x, y, z. auto.
Qed.
Lemma p_float_text : forall tk E t, world tk E -> tk t -> isdigit (no_dots t) = true -> post E (@qt str) (float_text t).
Proof.
  intros tk E t W T D. unfold float_text. destruct (split dot t) as [|a [|b [|d l]]] eqn:S; cbn; cbv zeta.
  - exfalso. destruct t; cbn in S; try discriminate. destruct (N.eqb n dot); try discriminate. destruct (split dot t); discriminate.
  - destruct (_ =? _)%Z; cbn; exact I.
  - destruct (_ =? _)%Z; cbn; exact I.
  - apply split_three in S. destruct S as [x [y [z S]]]. apply (w_number _ _ W t T). split; auto. exists x, y, z. exact S.
Qed.

(** ** The parsers *)
Definition soft (E : exn -> Prop) (e : exn) : Prop := E e \/ e = ParsingError "".
Definition good (tk : str -> Prop) (E : exn -> Prop) (P : parsers_t) : Prop :=
  (forall eos o ts, eok E eos -> otk tk (o_first o) -> Forall tk ts -> post E (qe tk) (p_expr P eos o ts))
  /\ (forall eos ts, eok E eos -> Forall tk ts -> post E qt (p_select P eos ts))
  /\ (forall ts, Forall tk ts -> post E qt (p_from P ts))
  /\ (forall eos ts, eok E eos -> Forall tk ts -> post (soft E) qt (p_stmt P eos ts)).
Lemma g_expr : forall tk E P eos o ts, good tk E P -> eok E eos -> otk tk (o_first o) -> Forall tk ts -> post E (qe tk) (p_expr P eos o ts).
Proof. intros tk E P eos o ts G. apply G. Qed.
Lemma g_select : forall tk E P eos ts, good tk E P -> eok E eos -> Forall tk ts -> post E qt (p_select P eos ts).
Proof. intros tk E P eos ts G. apply G. Qed.
Lemma g_from : forall tk E P ts, good tk E P -> Forall tk ts -> post E qt (p_from P ts).
Proof. intros tk E P ts G. apply G. Qed.
Lemma g_stmt : forall tk E P eos ts, good tk E P -> E (ParsingError "") -> eok E eos -> Forall tk ts -> post E qt (p_stmt P eos ts).
Proof. 
  intros tk E P eos ts G H1 H2 H3. destruct G as [_ [_ [_ G]]]. specialize (G eos ts H2 H3).
  destruct (p_stmt P eos ts); cbn in *; auto. destruct G; [auto|subst; auto].
Qed.

Ltac tok := solve [ assumption | apply quotes_low; assumption | apply quotes_in; assumption
  | match goal with H : lower ?t = _ |- In (lower ?t) _ => rewrite H; cbn; auto 12 end
  | match goal with H : In (lower ?t) _ |- In (lower ?t) _ => right; exact H end
  | match goal with H : ?t = _ |- In (lower ?t) _ => rewrite H; cbn; auto 12 end
  | cbn; auto 12 ].
Ltac eg := match goal with
  | H : ?g |- ?g => exact H
  | W : world ?tk ?E |- ?E StopIteration => exact (w_stop _ _ W)
  | W : world ?tk ?E |- ?E OutOfFuel => exact (w_fuel _ _ W)
  | W : world ?tk ?E, T : ?tk ?t |- ?E AssertionError => apply (w_assert _ _ W t T); tok
  | W : world ?tk ?E, T : ?tk ?t |- ?E ValueError => apply (w_quote _ _ W t T); tok
  | W : world ?tk ?E, T : ?tk ?t |- ?E ValueError => apply (w_limit _ _ W t T); tok
  | W : world ?tk ?E, T : ?tk ?t |- ?E IndexError => apply (w_index _ _ W t T); tok
  | W : world ?tk ?E, T : ?tk ?t |- ?E (ParsingError "") => apply (w_with _ _ W t T); tok
  | W : world ?tk ?E, T : ?tk ?t |- ?E (ParsingError "expected '('") => apply (w_paren _ _ W t T); tok
  | W : world ?tk ?E, T : ?tk ?t |- ?E (ParsingError "expected AND") => apply (w_and _ _ W t T); tok
  | W : world ?tk ?E, T : ?tk ?t, U : ?tk ?u |- ?E (ParsingError "Missing BY after PARTITION") => apply (w_partition _ _ W t u T); [tok|exact U|tok]
  | W : world ?tk ?E, T : ?tk ?t |- ?E (ParsingError "Missing BY after ORDER") => apply (w_order _ _ W t T); tok
  | W : world ?tk ?E, T : ?tk ?t |- ?E (ParsingError "Missing BY after GROUP") => apply (w_group _ _ W t T); tok
  end.
Ltac fa := match goal with
  | |- Forall _ _ => solve [assumption | auto | apply Forall_app; auto]
  | |- otk _ (if ?b then _ else _) => destruct b; cbn [otk]; auto
  | |- otk _ _ => solve [assumption | exact I | cbn; auto]
  | |- eok _ _ => solve [assumption | exact I]
  end.
Create HintDb raise.
#[local] Hint Extern 2 (otk _ _) => fa : raise.
#[local] Hint Extern 2 (eok _ _) => fa : raise.
#[local] Hint Extern 2 (Forall _ _) => fa : raise.
#[local] Hint Extern 3 => eg : raise.
#[local] Hint Resolve p_next_opt p_next_req p_until_close p_until_one_of p_until_not_in p_rassert p_py_int p_float_text
  g_expr g_select g_from g_stmt : raise.
Ltac facts := repeat (match goal with
  | C : _ && _ = true |- _ => apply andb_prop in C; destruct C
  | C : str_eqb _ _ = true |- _ => apply str_eqb_eq in C
  | C : olow_is ?o _ = true |- _ => apply olow_is_true in C; destruct C as [? [-> C]]
  | C : olow_in ?o _ = true |- _ => apply olow_in_true in C; destruct C as [? [-> C]]
  | C : opt_eqb _ _ = true |- _ => clear C
  end; cbn [otk] in * ).
Ltac unq := unfold qm, qo, qr, ql, qe, qa in *; cbn [fst snd] in *; repeat match goal with H : _ /\ _ |- _ => destruct H end; cbn [otk] in *.
Ltac brk := match goal with
  | x : (_ * _)%type |- _ => destruct x as [? ?]; cbv beta iota
  end.
Ltac fin := cbn [post]; unfold qm, qo, qr, ql, qe, qa; cbn [fst snd otk]; repeat split; solve [exact I | fa | assumption | cbn; auto].
Ltac inline := match goal with
  | W : world ?tk ?E |- post ?E _ (rbind _ _) =>
    first [ apply (post_bind E (qe tk)) | apply (post_bind E (qo tk)) | apply (post_bind E (qr tk)) | apply (post_bind E qt) ]
  end.
Ltac po1 := match goal with
  | |- post _ _ (Ok _) => fin
  | |- post _ _ (Err _) => cbn [post]; eg
  | |- post _ _ (rbind ?a _) => first [eapply post_bind; [solve [eauto 6 with raise nocore]|] | inline]
  | |- post _ _ (let '(_, _) := ?x in _) => destruct x as [[? ?] ?]
  | |- post _ _ (if ?b then _ else _) => let C := fresh "C" in destruct b eqn:C; facts
  | |- post _ _ (match ?b with _ => _ end) => let C := fresh "C" in destruct b eqn:C; cbn [otk] in *;
      repeat match goal with F : Forall ?tk (?a :: ?l), W : world ?tk _ |- _ =>
        assert (tk a) by (inversion F; assumption); assert (Forall tk l) by (inversion F; assumption);
        generalize (conj I F); clear F; intros F end
  | |- forall _, _ => let x := fresh "x" in let H := fresh "H" in intros x H; repeat brk; unq
  | _ => progress cbv zeta
  | |- post _ _ _ => solve [eauto 6 with raise nocore]
  end.
Ltac po := repeat po1.

Lemma p_string_parse : forall tk E eos ts q p, world tk E -> eok E eos -> E ValueError -> Forall tk ts -> post E (qr tk) (string_parse eos ts q p).
Proof. intros. unfold string_parse. po. Qed.
#[local] Hint Resolve p_string_parse : raise.
Lemma p_exprlist_loop : forall tk E P, world tk E -> good tk E P -> forall n cbt acc par sq ins ts, length ts <= n -> Forall tk acc -> Forall tk ts ->
  post E qt (exprlist_loop P cbt acc par sq ins ts).
Proof.
  intros tk E P W G. induction n as [|n IH]; intros cbt acc par sq ins ts L F1 F2.
  { destruct ts; cbn in *; [exact I|lia]. }
  destruct ts as [|t r]; [exact I|]. cbn [exprlist_loop]. cbv zeta. inversion F2; subst. cbn in L.
  match goal with |- post _ _ (let '(_, _) := ?x in _) => destruct x as [[a b] c] end.
  assert (Forall tk (acc ++ [t])) by (apply Forall_app; auto).
  destruct r as [|m r]; [po|]. destruct (_ && _).
  - match goal with H : Forall tk (m :: r) |- _ => inversion H; subst end. po. apply IH; auto; cbn in *; lia.
  - apply IH; auto. cbn in *; lia.
Qed.
Lemma p_exprlist : forall tk E P cbt ts, world tk E -> good tk E P -> Forall tk ts -> post E qt (exprlist P cbt ts).
Proof. intros. eapply p_exprlist_loop; eauto. Qed.
#[local] Hint Resolve p_exprlist : raise.
Lemma p_orderby_item : forall tk E P ts, world tk E -> good tk E P -> Forall tk ts -> post E qt (orderby_item P ts).
Proof. intros. unfold orderby_item. po. Qed.
#[local] Hint Resolve p_orderby_item : raise.
Lemma p_orderby_loop : forall tk E P k ts, world tk E -> good tk E P -> Forall tk ts -> post E qt (orderby_loop P k ts).
Proof. intros tk E P k. induction k as [|k IH]; intros; cbn [orderby_loop]; po. Qed.
#[local] Hint Resolve p_orderby_loop : raise.
Lemma p_orderby : forall tk E P ts, world tk E -> good tk E P -> Forall tk ts -> post E qt (orderby P ts).
Proof. intros. unfold orderby. po. Qed.
#[local] Hint Resolve p_orderby : raise.
Lemma p_groupby : forall tk E P ts, world tk E -> good tk E P -> Forall tk ts -> post E qt (groupby P ts).
Proof. intros. unfold groupby. po. Qed.
#[local] Hint Resolve p_groupby : raise.
Lemma p_limit_clause : forall tk E P ts, world tk E -> good tk E P -> Forall tk ts -> post E qt (limit_clause P ts).
Proof. intros. unfold limit_clause. po. Qed.
#[local] Hint Resolve p_limit_clause : raise.
Lemma p_case_loop : forall tk E P k nt ts ws el, world tk E -> good tk E P -> otk tk nt -> Forall tk ts -> post E qt (case_loop P k nt ts ws el).
Proof. intros tk E P k. induction k as [|k IH]; intros; cbn [case_loop]; po. Qed.
#[local] Hint Resolve p_case_loop : raise.
Lemma p_case_parse : forall tk E P ts, world tk E -> good tk E P -> Forall tk ts -> post E qt (case_parse P ts).
Proof. intros. unfold case_parse. po. Qed.
#[local] Hint Resolve p_case_parse : raise.
Lemma p_expr_first : forall tk E P eos o main ts, world tk E -> good tk E P -> eok E eos -> tk main -> Forall tk ts -> post E (qe tk) (expr_first P eos o main ts).
Proof. intros. unfold expr_first. po. Qed.
#[local] Hint Resolve p_expr_first : raise.
Lemma p_cast_call : forall tk E P eos o ts, world tk E -> good tk E P -> eok E eos -> E AssertionError -> Forall tk ts -> post E (qr tk) (cast_call P eos o ts).
Proof. intros. unfold cast_call. po. Qed.
#[local] Hint Resolve p_cast_call : raise.
Lemma p_array_agg_call : forall tk E P eos o ts, world tk E -> good tk E P -> eok E eos -> E AssertionError -> E ValueError -> Forall tk ts ->
  post E (qr tk) (array_agg_call P eos o ts).
Proof. intros. unfold array_agg_call. po. Qed.
#[local] Hint Resolve p_array_agg_call : raise.
Lemma p_count_call : forall tk E P eos ts, world tk E -> good tk E P -> eok E eos -> Forall tk ts -> post E (qr tk) (count_call P eos ts).
Proof. intros. unfold count_call. po. Qed.
#[local] Hint Resolve p_count_call : raise.
Lemma p_other_call : forall tk E P eos o main ts, world tk E -> good tk E P -> eok E eos -> Forall tk ts -> post E (qr tk) (other_call P eos o main ts).
Proof. intros. unfold other_call. po. Qed.
#[local] Hint Resolve p_other_call : raise.
Lemma p_call : forall tk E P eos o main ts, world tk E -> good tk E P -> eok E eos -> tk main -> Forall tk ts -> post E (qe tk) (call P eos o main ts).
Proof.
  intros. unfold call. po.
Qed.
#[local] Hint Resolve p_call : raise.

Lemma p_expr_second : forall tk E P eos o main nt ts, world tk E -> good tk E P -> eok E eos -> tk main -> otk tk nt -> Forall tk ts ->
  post E (qe tk) (expr_second P eos o main nt ts).
Proof. intros. unfold expr_second. po. destruct nt; [|discriminate]. cbn [otk] in *. po. Qed.
#[local] Hint Resolve p_expr_second : raise.
Lemma p_over_clause : forall tk E P eos e nt ts, world tk E -> good tk E P -> eok E eos -> otk tk nt -> Forall tk ts -> post E (qe tk) (over_clause P eos e nt ts).
Proof. intros. unfold over_clause. po. Qed.
#[local] Hint Resolve p_over_clause : raise.
Lemma p_dot_loop : forall tk E P k eos until e nt ts, world tk E -> good tk E P -> eok E eos -> otk tk nt -> Forall tk ts -> post E (qe tk) (dot_loop P k eos until e nt ts).
Proof. intros tk E P k. induction k as [|k IH]; intros; cbn [dot_loop]; po. Qed.
#[local] Hint Resolve p_dot_loop : raise.
Lemma p_index_loop : forall tk E P k eos e nt ts, world tk E -> good tk E P -> eok E eos -> otk tk nt -> Forall tk ts -> post E (qe tk) (index_loop P k eos e nt ts).
Proof. intros tk E P k. induction k as [|k IH]; intros; cbn [index_loop]; po. Qed.
#[local] Hint Resolve p_index_loop : raise.
Lemma p_expr_postfix : forall tk E P eos o e nt ts, world tk E -> good tk E P -> eok E eos -> otk tk nt -> Forall tk ts -> post E (qe tk) (expr_postfix P eos o e nt ts).
Proof. intros. unfold expr_postfix. po. Qed.
#[local] Hint Resolve p_expr_postfix : raise.
Lemma p_expr_compare : forall tk E P eos o e nt ts, world tk E -> good tk E P -> eok E eos -> otk tk nt -> Forall tk ts -> post E (qe tk) (expr_compare P eos o e nt ts).
Proof.
  intros. unfold expr_compare. destruct nt as [sym|]; [|fin]. destruct (mem (lower sym) PREDICATES); [|po].
  apply (post_bind E (fun x => otk tk (fst (fst x)) /\ Forall tk (snd x))); po.
Qed.
#[local] Hint Resolve p_expr_compare : raise.
Lemma p_expr_bool : forall tk E P eos o e nt ts, world tk E -> good tk E P -> eok E eos -> otk tk nt -> Forall tk ts -> post E (qe tk) (expr_bool P eos o e nt ts).
Proof. intros. unfold expr_bool. po. Qed.
#[local] Hint Resolve p_expr_bool : raise.
Lemma p_expr_except : forall tk E P eos e nt ts, world tk E -> good tk E P -> eok E eos -> otk tk nt -> Forall tk ts -> post E (qe tk) (expr_except P eos e nt ts).
Proof. intros. unfold expr_except. po. Qed.
#[local] Hint Resolve p_expr_except : raise.
Lemma p_expr_replace : forall tk E P eos e nt ts, world tk E -> good tk E P -> eok E eos -> otk tk nt -> Forall tk ts -> post E (qe tk) (expr_replace P eos e nt ts).
Proof. intros. unfold expr_replace. po. Qed.
#[local] Hint Resolve p_expr_replace : raise.
Lemma p_expr_alias : forall tk E P eos o e nt ts, world tk E -> good tk E P -> eok E eos -> otk tk nt -> Forall tk ts -> post E (qe tk) (expr_alias P eos o e nt ts).
Proof. intros. unfold expr_alias. po. Qed.
#[local] Hint Resolve p_expr_alias : raise.
Lemma p_expr_tail : forall tk E P eos o e nt ts, world tk E -> good tk E P -> eok E eos -> otk tk nt -> Forall tk ts -> post E (qe tk) (expr_tail P eos o e nt ts).
Proof. intros. unfold expr_tail. po. Qed.
#[local] Hint Resolve p_expr_tail : raise.
Lemma p_expr_head : forall tk E P eos o main ts, world tk E -> good tk E P -> eok E eos -> tk main -> Forall tk ts -> post E (qe tk) (expr_head P eos o main ts).
Proof. intros. unfold expr_head. po. Qed.
#[local] Hint Resolve p_expr_head : raise.
Lemma p_expr_body : forall tk E P eos o ts, world tk E -> good tk E P -> eok E eos -> otk tk (o_first o) -> Forall tk ts -> post E (qe tk) (expr_body P eos o ts).
Proof.
  intros. unfold expr_body. apply (post_bind E (qm tk)); [|po].
  destruct (o_first o) as [[|c f]|]; cbn [otk] in *; po.
Qed.
#[local] Hint Resolve p_expr_body : raise.
Lemma p_select_body : forall tk E P eos ts, world tk E -> good tk E P -> eok E eos -> Forall tk ts -> post E (qt) (select_body P eos ts).
Proof. intros. unfold select_body. po. Qed.
#[local] Hint Resolve p_select_body : raise.
Lemma p_with_loop : forall tk E P k eos ts, world tk E -> good tk E P -> eok E eos -> E AssertionError -> E (ParsingError "") -> Forall tk ts -> post E (qr tk) (with_loop P k eos ts).
Proof. intros tk E P k. induction k as [|k IH]; intros; cbn [with_loop]; po. Qed.
#[local] Hint Resolve p_with_loop : raise.
Lemma p_with_parse : forall tk E P eos ts, world tk E -> good tk E P -> eok E eos -> E AssertionError -> E (ParsingError "") -> Forall tk ts -> post E (qt) (with_parse P eos ts).
Proof. intros. unfold with_parse. po. Qed.
#[local] Hint Resolve p_with_parse : raise.
Lemma p_stmt_body : forall tk E P eos ts, world tk E -> good tk E P -> eok E eos -> Forall tk ts -> post (soft E) qt (stmt_body P eos ts).
Proof.
  intros tk E P eos ts W G H F. unfold stmt_body.
  assert (S : forall A (Q : A -> Prop) (r : R A), post E Q r -> post (soft E) Q r) by (intros A Q [x|e] X; cbn in *; auto; left; auto).
  eapply post_bind; [apply S; eauto with raise nocore|]. intros [t r] [T F']. cbn in T, F'.
  destruct (str_eqb (lower t) "select"); [apply S; eauto with raise nocore|].
  destruct (str_eqb (lower t) "with") eqn:C; [facts; apply S; eauto with raise nocore|]. cbn. right. reflexivity.
Qed.
#[local] Hint Resolve p_stmt_body : raise.
Lemma p_from_alias : forall tk E e t ts, world tk E -> tk t -> Forall tk ts -> post E (qe tk) (from_alias e t ts).
Proof.
  intros. unfold from_alias. apply (post_bind E (fun x => tk (snd (fst x)) /\ Forall tk (snd x))); [po|]. po.
Qed.
#[local] Hint Resolve p_from_alias : raise.
Lemma p_unnest_parse : forall tk E P ts, world tk E -> good tk E P -> E AssertionError -> Forall tk ts -> post E (qe tk) (unnest_parse P ts).
Proof. intros. unfold unnest_parse. po. Qed.
#[local] Hint Resolve p_unnest_parse : raise.
Lemma p_table_dot_loop : forall tk E P k e nt ts, world tk E -> good tk E P -> otk tk nt -> Forall tk ts -> post E (qe tk) (table_dot_loop P k e nt ts).
Proof. intros tk E P k. induction k as [|k IH]; intros; cbn [table_dot_loop]; po. Qed.
#[local] Hint Resolve p_table_dot_loop : raise.
Lemma p_retry : forall tk E P l, good tk E P -> Forall tk l ->
  post E qt (match p_stmt P None l with Err (ParsingError _) => p_from P l | r => r end).
Proof.
  intros tk E P l G F. assert (X : post (soft E) qt (p_stmt P None l)) by (apply G; cbn; auto).
  assert (Y : post E qt (p_from P l)) by (apply G; auto).
  destruct (p_stmt P None l) as [x|e]; [exact I|].
  destruct e; auto; destruct X as [X|X]; try discriminate; exact X.
Qed.
#[local] Hint Resolve p_retry : raise.
Lemma p_from_item : forall tk E P ts, world tk E -> good tk E P -> Forall tk ts -> post E (qe tk) (from_item P ts).
Proof. intros. unfold from_item. po. Qed.
#[local] Hint Resolve p_from_item : raise.
Lemma p_set_loop : forall tk E P k e nt ts, world tk E -> good tk E P -> otk tk nt -> Forall tk ts -> post E (qe tk) (set_loop P k e nt ts).
Proof. intros tk E P k. induction k as [|k IH]; intros; cbn [set_loop]; po. Qed.
#[local] Hint Resolve p_set_loop : raise.
Lemma p_join_loop : forall tk E P k e nt ts, world tk E -> good tk E P -> otk tk nt -> Forall tk ts -> post E (qe tk) (join_loop P k e nt ts).
Proof.
  intros tk E P k. induction k as [|k IH]; intros; cbn [join_loop]; [po|].
  destruct (olow_in nt JOIN_VALUES) eqn:C; [facts|fin].
  eapply post_bind; [solve [eauto 6 with raise nocore]|]. intros [[et n2] r] Q; unq. cbv zeta.
  apply (post_bind E (qa tk)); [|po]. destruct (mem _ _); [|po]. cbn. unfold qa. cbn. repeat split; auto. destruct n2; auto.
Qed.
#[local] Hint Resolve p_join_loop : raise.
Lemma p_from_body : forall tk E P ts, world tk E -> good tk E P -> Forall tk ts -> post E (qt) (from_body P ts).
Proof. intros. unfold from_body. po. Qed.
#[local] Hint Resolve p_from_body : raise.
Lemma good_parsers : forall tk E n, world tk E -> good tk E (parsers n).
Proof.
  intros tk E n W. induction n as [|n IH].
  - repeat split; intros; cbn; try apply (w_fuel _ _ W). left. apply (w_fuel _ _ W).
  - repeat split; intros; cbn [parsers p_expr p_select p_from p_stmt];
      [apply p_expr_body|eapply p_select_body|eapply p_from_body|eapply p_stmt_body]; eauto.
Qed.

(** ** The whole parser *)
Lemma rejoin : forall q ws t, In t (fst (to_tokens q)) -> In (lower t) ws -> uses q ws.
Proof. intros q ws t H1 H2. exists t. auto. Qed.
Lemma world_raises : forall q, world (fun t => In t (fst (to_tokens q))) (fun e => raises q e \/ e = OutOfFuel).
Proof.
  intros q. constructor; intros; cbv beta; [right; reflexivity|left..].
  - constructor.
  - apply r_assert. eapply rejoin; eauto.
  - apply r_quote. eapply rejoin; eauto.
  - apply r_limit. eapply rejoin; eauto.
  - apply r_number. eauto.
  - apply r_index. eapply rejoin; eauto.
  - apply r_with. eapply rejoin; eauto.
  - apply r_paren. eapply rejoin; eauto.
  - apply r_and. eapply rejoin; eauto.
  - apply r_partition; [apply (rejoin q _ t)|apply (rejoin q _ u)]; auto.
  - apply r_order. eapply rejoin; eauto.
  - apply r_group. eapply rejoin; eauto.
Qed.
Lemma flat_stream_end : forall rec l, (forall v, In (snd (rec v)) [None; Some RecursionError]) -> In (snd (flat_stream rec l)) [None; Some RecursionError].
Proof.
  intros rec l H. induction l as [|v l IH]; cbn [flat_stream]; [cbn; auto|]. specialize (H v). unfold sapp.
  destruct (rec v) as [a [e|]]; cbn in H; [exact H|]. destruct (flat_stream rec l). exact IH.
Qed.
Lemma string_parts_end : forall rec q b l, (forall v, In (snd (rec v)) [None; Some RecursionError]) ->
  In (snd (string_parts rec q b l)) [None; Some RecursionError].
Proof.
  intros rec q b l H. revert b. induction l as [|v l IH]; intros b; cbn [string_parts]; [cbn; auto|].
  assert (K : forall x b, In (snd x) [None; Some RecursionError] -> In (snd (sapp x (string_parts rec q b l))) [None; Some RecursionError]).
  { intros [a [e|]] b' X; cbn in X; [exact X|]. unfold sapp. specialize (IH b'). destruct (string_parts rec q b' l). exact IH. }
  destruct (str_eqb v [q]); [apply K; cbn; auto|]. destruct b; apply K; [cbn; auto|apply H].
Qed.
Lemma split_tokens_end : forall n v, In (snd (split_tokens n v)) [None; Some RecursionError].
Proof.
  induction n as [|n IH]; intros v; cbn [split_tokens]; [cbn; auto|].
  destruct (find is_quote v); [apply string_parts_end, IH|].
  destruct (find _ WHITESPACE_SPLIT_TOKENS); [apply flat_stream_end, IH|].
  destruct (find _ KEPT_SPLIT_TOKENS); [|cbn; auto]. destruct (_ && _); [cbn; auto|apply flat_stream_end, IH].
Qed.
Lemma to_tokens_end : forall q, snd (to_tokens q) = None \/ snd (to_tokens q) = Some RecursionError /\ ~ tame q.
Proof.
  intros q. assert (X := split_tokens_end (S (length q)) q). unfold to_tokens. unfold raw_tokens.
  destruct (split_tokens (S (length q)) q) as [l e] eqn:S. cbn in X. destruct X as [<-|[<-|[]]].
  - left. rewrite merged_eq. reflexivity.
  - right. split; [apply merge_error|]. intros T. assert (Y := raw_tokens_eq q T). unfold raw_tokens in Y. rewrite S in Y. discriminate.
Qed.
Lemma parse_raises : forall q e, parse_sql q = Err e -> raises q e.
Proof.
  intros q e H. assert (NF : e <> OutOfFuel) by (intros ->; apply (proj1 (format_terminates q)); exact H).
  cut (raises q e \/ e = OutOfFuel); [tauto|]. clear NF.
  unfold parse_sql in H. assert (W := world_raises q). assert (T := to_tokens_end q).
  assert (FT : exists ts eos, to_tokens q = (ts, eos)) by (destruct (to_tokens q); eauto). destruct FT as [ts [eos FT]].
  rewrite FT in H. unfold parse_stmt in H.
  assert (EO : eok (fun e => raises q e \/ e = OutOfFuel) eos).
  { rewrite FT in T. cbn in T. destruct T as [->|[-> T]]; cbn; auto. left. apply r_recursion, T. }
  assert (F : Forall (fun t => In t (fst (to_tokens q))) ts) by (rewrite FT; apply Forall_forall; auto).
  unfold parse_fuel in H. replace (4 * length ts + 8) with (S (4 * length ts + 7)) in H by lia.
  cbn [parsers p_stmt] in H. assert (G := good_parsers _ _ (4 * length ts + 7) W).
  set (P := parsers _) in *. clearbody P. unfold stmt_body in H.
  destruct ts as [|t ts].
  { cbn in H. destruct eos; injection H as <-; [exact EO|left; constructor]. }
  cbn [next_req rbind] in H. assert (F' : Forall (fun t => In t (fst (to_tokens q))) ts) by (inversion F; auto).
  destruct (str_eqb (lower t) "select") eqn:C1.
  { assert (X := proj1 (proj2 G) eos ts EO F'). rewrite H in X. exact X. }
  destruct (str_eqb (lower t) "with") eqn:C2.
  { apply str_eqb_eq in C2. assert (U : uses q ["with"]).
    { exists t. rewrite FT. cbn. auto. }
    assert (X := p_with_parse _ _ P eos ts W G EO). rewrite H in X. apply X; auto; left.
    - apply r_assert. exists t. rewrite FT, C2. cbn. auto 12.
    - apply r_with, U. }
  injection H as <-. left. apply r_statement. exists t, ts. rewrite FT. split; auto.
  cbn. apply str_eqb_neq in C1, C2. intros [X|[X|[]]]; auto.
Qed.
