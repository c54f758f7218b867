(** Which exceptions writing and checking a parsed query raise. *)
From Verif Require Import PyStr PyFloat Lib Tokeniser Ast AstLib Parser Render RenderEq Validate Api ProofFuel SpecTok SpecRaise ProofRaise.
Local Open Scope str_scope.
Local Open Scope list_scope.

Lemma fails_child : forall c n e, In c (children n) -> fails c e -> fails n e.
Proof. intros c n e H [m [O C]]. exists m. split; auto. econstructor; eauto. Qed.
Lemma fails_here : forall n e, culprit n e -> fails n e.
Proof. intros n e H. exists n. split; auto. constructor. Qed.
Lemma post_rmap : forall {A B} E (f : A -> R B) l, (forall x, In x l -> post E qt (f x)) -> post E qt (rmap f l).
Proof.
  intros A B E f l. induction l as [|x l IH]; intros H; [exact I|]. cbn. eapply post_bind; [apply H; left; auto|].
  intros y _. eapply post_bind; [apply IH; intros; apply H; right; auto|]. intros. exact I.
Qed.
(** the list is empty exactly when the result is *)
Lemma post_rmap_nil : forall {A B} E (f : A -> R B) l, (forall x, In x l -> post E qt (f x)) -> post E (fun r => r = [] -> l = []) (rmap f l).
Proof.
  intros A B E f [|x l] H; [intros _; reflexivity|]. cbn. eapply post_bind; [apply H; left; auto|].
  intros y _. eapply post_bind; [apply post_rmap; intros; apply H; right; auto|]. intros. discriminate.
Qed.
Ltac here := apply fails_here; solve [econstructor; eauto].
Lemma repr_fails : forall n, post (fails n) qt (py_repr n).
Proof.
  induction n as [n IH] using node_ind'.
  assert (H : forall c, In c (children n) -> post (fails n) qt (py_repr c)).
  { intros c K. specialize (IH c K). destruct (py_repr c); cbn in *; auto. eapply fails_child; eauto. }
  clear IH. destruct n; cbn [py_repr]; repeat first
  [ exact I | match goal with
    | |- post _ _ (Err _) => here
    | |- post _ _ (rbind _ _) => apply (post_bind _ qt); [|intros ? _]
    | |- post _ _ (rmap _ _) => apply post_rmap; intros
    | |- post _ _ (match ?x with _ => _ end) => destruct x
    end
  | solve [apply H; cbn; rewrite ?in_app_iff; cbn; eauto 15 using in_map] ].
Qed.
Lemma order_text_fails : forall (E : exn -> Prop) b l, (l = [] -> E IndexError) -> post E qt (order_text b l).
Proof. intros E b [|x [|y l]] H; cbn; auto; exact I. Qed.
Lemma select_all_fails : forall (E : exn -> Prop) v k l, (l = [] -> E IndexError) -> post E qt (select_all_text v k l).
Proof. intros E v k [|x [|y l]] H; cbn; auto; exact I. Qed.
Lemma is_with_inv : forall n, is_with n = true -> exists qs s, n = NWith qs s.
Proof. intros []; cbn; try discriminate. eauto. Qed.
Lemma render_fails : forall n m, post (fails n) qt (render m n).
Proof.
  induction n as [n IH] using node_ind'.
  assert (H : forall c m, In c (children n) -> post (fails n) qt (render m c)).
  { intros c m K. specialize (IH c K m). destruct (render m c); cbn in *; auto. eapply fails_child; eauto. }
  clear IH. destruct n; intros m; render_eq; repeat lazymatch goal with
    | |- post _ _ (Ok _) => exact I
    | |- post _ _ (Err _) => cbn [post]; here
    | |- post _ _ (let _ := _ in _) => cbv zeta
    | |- post _ _ (py_repr _) => apply repr_fails
    | |- post _ _ (order_text _ _) => apply order_text_fails; intros Z;
         match goal with K : _ -> _ = [] |- _ => rewrite (K Z) in *; here end
    | |- post _ _ (select_all_text _ _ _) => apply select_all_fails; intros Z;
         match goal with K : _ -> _ = [] |- _ => rewrite (K Z) in *; here end
    | |- post _ _ (rbind (rmap _ _) _) => eapply post_bind; [apply post_rmap_nil; intros|intros]
    | |- post _ _ (rbind _ _) => apply (post_bind _ qt); [|intros ? _]
    | |- post _ _ (rmap _ _) => apply post_rmap; intros
    | |- post _ _ (render _ _) => apply H; unfold children; isin
    | |- post _ _ (if is_with ?x then _ else _) => let C := fresh in destruct (is_with x) eqn:C
    | |- post _ _ (match ?x with _ => _ end) => destruct x
    end.
  all: try (first [apply order_text_fails|apply select_all_fails]; intros Z; match goal with K : (fun r => r = [] -> ?l = []) ?x, Z : ?x = [] |- _ => assert (Y : l = []) by (apply K; exact Z) end; subst; here).
  all: match goal with K : is_with (snd ?q) = true, L : In ?q _ |- _ => destruct q as [a b]; apply is_with_inv in K; destruct K as [qs [s K]]; cbn in K; subst b end; cbn [post]; apply fails_here; econstructor; eassumption.
Qed.
Lemma format_raises : forall q e, format_sql q = Err e -> raises q e \/ exists n, parse_sql q = Ok n /\ fails n e.
Proof.
  intros q e H. unfold format_sql in H. destruct (parse_sql q) as [n|e'] eqn:P; cbn in H.
  - right. exists n. split; auto. assert (X := render_fails n Tr). unfold transform in H. rewrite H in X. exact X.
  - left. injection H as <-. apply parse_raises, P.
Qed.

(** ** Checking *)
Definition tree_exn (e : exn) : Prop := In e [AttributeError; TypeError; IndexError].
Lemma render_exn : forall m n, post tree_exn qt (render m n).
Proof.
  intros m n. assert (X := render_fails n m). destruct (render m n) as [x|e]; cbn in *; auto.
  destruct X as [k [_ C]]. destruct C; cbn; auto.
Qed.
Lemma return_type_exn : forall n, post tree_exn qt (return_type n).
Proof.
  induction n as [n IH] using node_ind'. destruct n; cbn [return_type]; try exact I; try (cbn; auto; fail).
  all: try (apply IH; cbn; auto; fail).
  destruct args; [exact I|]. apply IH; cbn; auto.
Qed.
Lemma resolve_exn : forall ord n known, post tree_exn qt (resolve ord n known).
Proof.
  intros. unfold resolve. destruct (is_select n); [cbn; auto|]. destruct (ord known); [apply return_type_exn|].
  eapply post_bind; [apply render_exn|]. intros t _. destruct (filter _ _); [apply return_type_exn|exact I].
Qed.
Lemma unparen_exn : forall n, post tree_exn qt (unparen n).
Proof.
  induction n as [n IH] using node_ind'. destruct n; cbn [unparen]; try exact I. destruct args; [cbn; auto|].
  apply IH. cbn; auto.
Qed.
Ltac ex := repeat first [exact I | solve [cbn; auto] | match goal with
    | |- post _ _ (rbind _ _) => apply (post_bind _ qt); [|intros ? _]
    | |- post _ _ (rmap _ _) => apply post_rmap; intros
    | |- post _ _ (render _ _) => apply render_exn
    | |- post _ _ (return_type _) => apply return_type_exn
    | |- post _ _ (unparen _) => apply unparen_exn
    | |- post _ _ (resolve _ _ _) => apply resolve_exn
    | |- post _ _ (let _ := _ in _) => cbv zeta
    end].
Lemma select_field_exn : forall n, post tree_exn qt (select_field n).
Proof. intros []; cbn [select_field]; ex. destruct alias as [|[]]; ex. Qed.
Lemma alias_fields_exn : forall r fs, post tree_exn qt r -> post tree_exn qt (alias_fields r fs).
Proof. intros r [|f fs] H; unfold alias_fields; ex. Qed.
Lemma known_fields_exn : forall n, post tree_exn qt (known_fields n).
Proof.
  induction n as [n IH] using node_inside_ind.
  assert (H : forall c, In c (children n) -> post tree_exn qt (known_fields c)) by (intros; apply IH, inside_child; auto).
  destruct n; cbn [known_fields]; try (cbn; auto; fail); try exact I.
  - apply (post_bind _ qt); [apply post_rmap; intros; apply select_field_exn|intros ? _]. cbv zeta.
    destruct from_ as [f|]; [|exact I]. destruct f; try exact I. destruct args as [|a args]; [cbn; auto|].
    assert (Y : post tree_exn qt (known_fields a)).
    { apply IH. apply (inside_child2 a (NParen (a :: args))); [unfold children; isin|left; reflexivity]. }
    destruct a; try exact I. apply (post_bind _ qt).
    + exact Y.
    + intros ? _. destruct (_ && _); exact I.
  - destruct args as [|a args]; [cbn; auto|]. assert (X := H a (or_introl eq_refl)).
    destruct (known_fields a) as [|e]; [exact I|]. destruct e; cbn in *; auto; exact I.
  - apply (post_bind _ qt); [apply H; cbn; auto|intros ? _]. apply alias_fields_exn. destruct alias; [exact I|apply render_exn].
  - assert (S : forall l, In l [n1; n2] -> post tree_exn qt (match l with
           | NAlias e a _ =>
             fs <- known_fields e ;;
             alias_fields (match a with inl s => Ok s | inr _ => Err TypeError end) fs
           | _ => known_fields l
           end)).
    { intros l L. assert (Y : In l (children (NJoin ty n1 n2 on_ using_))) by (cbn; destruct L as [<-|[<-|[]]]; auto).
      destruct l; try (apply H; exact Y). apply (post_bind _ qt).
      - apply IH. eapply inside_child2; [exact Y|left; reflexivity].
      - intros ? _. apply alias_fields_exn. destruct alias; cbn; auto. exact I. }
    apply (post_bind _ qt); [apply S; cbn; auto|intros ? _]. apply (post_bind _ qt); [apply S; cbn; auto|intros ? _]. exact I.
Qed.
Lemma chained_errors_exn : forall l r known, post tree_exn qt (chained_errors l r known).
Proof. intros. unfold chained_errors. ex. destruct (_ && _); ex. Qed.
Lemma bool_errors_exn : forall ord who n known, post tree_exn qt (bool_errors ord who n known).
Proof. intros. unfold bool_errors. apply (post_bind _ qt); [apply resolve_exn|]. intros [[]|] _; ex. Qed.
Lemma group_arg_exn : forall known es a, post tree_exn qt (group_arg_errors known es a).
Proof.
  intros. unfold group_arg_errors. ex. destruct x; ex.
  - destruct (_ && _); [|exact I]. destruct (fmatching _ _) as [|? [|]]; ex.
  - destruct (_ && _); [|exact I]. destruct (fmatching _ _) as [|? [|]]; ex.
  - destruct (_ || _); exact I.
Qed.
Lemma count_errors_exn : forall a b n, post tree_exn qt (count_errors a b n).
Proof. intros. unfold count_errors. ex. destruct x; ex. Qed.
Lemma order_item_exn : forall c e r, post tree_exn qt r -> post tree_exn qt (order_item_errors c e r).
Proof.
  intros c e r H. unfold order_item_errors. ex. destruct x; auto. destruct (_ <=? _)%Z; [exact I|].
  destruct c; ex.
Qed.
Lemma rconcat_exn : forall {A} (f : A -> R (list str)) l, (forall x, In x l -> post tree_exn qt (f x)) -> post tree_exn qt (rconcat f l).
Proof. intros. unfold rconcat. apply (post_bind _ qt); [apply post_rmap; auto|]. intros. exact I. Qed.
Lemma ropt_exn : forall {A} (f : A -> R (list str)) o, (forall x, o = Some x -> post tree_exn qt (f x)) -> post tree_exn qt (Validate.ropt f o).
Proof. intros A f [x|] H; [apply H; auto|exact I]. Qed.
Lemma validate_exn : forall ord n known, post tree_exn qt (validate ord known n).
Proof.
  intros ord. induction n as [n IH] using node_inside_ind.
  assert (H : forall c known, In c (children n) -> post tree_exn qt (validate ord known c)) by (intros; apply IH, inside_child; auto).
  intros known. destruct n; cbn [validate]; repeat match goal with
    | |- post _ _ (Ok _) => exact I
    | |- post _ _ (Err _) => cbn; auto; fail
    | |- post _ _ (rbind _ _) => apply (post_bind _ qt); [|intros ? _]
    | |- post _ _ (Validate.ropt _ _) => apply ropt_exn; intros; subst
    | |- post _ _ (rconcat _ _) => apply rconcat_exn; intros
    | |- post _ _ (bool_errors _ _ _ _) => apply bool_errors_exn
    | |- post _ _ (chained_errors _ _ _) => apply chained_errors_exn
    | |- post _ _ (group_arg_errors _ _ _) => apply group_arg_exn
    | |- post _ _ (count_errors _ _ _) => apply count_errors_exn
    | |- post _ _ (order_item_errors _ _ _) => apply order_item_exn
    | |- post _ _ (validate _ _ _) => apply H; unfold children; solve [isin]
    | |- post _ _ (if ?x then _ else _) => destruct x
    end.
  - unfold visible. destruct from_ as [f|]; [|exact I]. assert (X := known_fields_exn f).
    destruct (known_fields f) as [|e]; [exact I|]. destruct e; cbn in *; auto; exact I.
  - destruct x6 as [| |i asc desc| | | | | | | | | | | | | | | | | | | | | | | | | | | | | | |]; try (cbn; auto; fail). apply order_item_exn, IH.
    apply (inside_child2 _ (NOrderItem i asc desc)); [unfold children; isin|left; reflexivity].
  - destruct (snd x6); [apply count_errors_exn|cbn; auto].
  - destruct x2 as [| |i asc desc| | | | | | | | | | | | | | | | | | | | | | | | | | | | | | |]; try (cbn; auto; fail). apply order_item_exn, IH.
    apply (inside_child2 _ (NOrderItem i asc desc)); [unfold children; isin|left; reflexivity].
  - destruct n2; try (cbn; auto; fail). apply (post_bind _ qt); [|intros ? _; apply (post_bind _ qt); [|intros; exact I]]; apply IH.
    + apply (inside_child2 _ (NBoolC ty n2_1 n2_2)); cbn; auto.
    + apply (inside_child2 _ (NBoolC ty n2_1 n2_2)); cbn; auto.
  - destruct x; try (cbn; auto; fail). destruct alias as [|a]; [cbn; auto|]. apply IH.
    apply (inside_child2 _ (NAlias x (inr a) with_as)); [cbn; auto|cbn; auto].
Qed.
Lemma is_valid_raises : forall ord q e, fst (q_is_valid ord q) = Err e ->
  (tree_exn e \/ raises (q_sql q) e) /\ forall m, e <> ParsingError m.
Proof.
  intros ord q e H. unfold q_is_valid in H. destruct (q_validated q) eqn:V; [discriminate|].
  unfold q_validate in H. unfold get_ast in H. cbn [q_ast q_sql q_validated q_errors] in H.
  assert (T : forall n, post tree_exn qt (validate_top ord n)).
  { intros n. destruct n; cbn [validate_top]; try (cbn; auto; fail). apply validate_exn. }
  assert (K : forall r q', (forall e, r = Err e -> tree_exn e \/ raises (q_sql q) e) ->
    fst (let '(r, q) := match r with
      | Ok es => (Ok tt, mk_query (q_sql q') (q_ast q') (q_validated q') es)
      | Err (ParsingError m) => (Ok tt, mk_query (q_sql q') (q_ast q') (q_validated q') (q_errors q' ++ [m]))
      | Err e => (Err e, q')
      end in (_ <- r ;; Ok (match q_errors q with [] => true | _ => false end), q)) = Err e ->
    (tree_exn e \/ raises (q_sql q) e) /\ forall m, e <> ParsingError m).
  { intros r q' A B. destruct r as [es|x]; [discriminate|]. specialize (A x eq_refl).
    destruct x; cbn in B; try discriminate B; injection B as <-; (split; [exact A|discriminate]). }
  destruct (q_ast q) as [n|].
  - eapply K; [|exact H]. intros x X. left. cbn in X. assert (Y := T n). rewrite X in Y. exact Y.
  - destruct (parse_sql (q_sql q)) as [n|x] eqn:P.
    + eapply K; [|exact H]. intros x X. left. cbn in X. assert (Y := T n). rewrite X in Y. exact Y.
    + clear K. apply parse_raises in P. cbn [rbind] in H.
      destruct x; cbn in H; try discriminate H; injection H as <-; (split; [right; exact P|discriminate]).
Qed.
