(** Lemmas about string prefixes and quotes. *)
From Verif Require Import PyStr Lib Tokeniser Ast Parser Render Validate Api PyTokens FileHandler
  SpecVal SpecFile.
Local Open Scope str_scope.
Local Open Scope list_scope.

Lemma lower_c_inv : forall c k, lower_c c = k -> is_lower_c k = true -> c = k \/ c = (k - 32)%N.
Proof.
  intros c k H L. unfold lower_c in H. destruct (is_upper_c c); subst; [right; lia | left; auto].
Qed.
Lemma legal_enum : forall p, legal_prefix p -> In p ([] :: STRING_PREFIXES).
Proof.
  intros p H. unfold legal_prefix in H.
  assert (E : exists l, lower p = l /\ In l [""; "r"; "u"; "f"; "b"; "fr"; "rf"; "br"; "rb"]) by eauto.
  destruct E as (l & E & I). clear H.
  repeat (destruct I as [<-|I]; [
    destruct p as [|c1 [|c2 [|c3 p]]]; try discriminate E; cbn in E;
    try (injection E as E1 E2 || injection E as E1 || idtac);
    repeat match goal with
    | H : lower_c _ = _ |- _ => apply lower_c_inv in H; [destruct H; subst|reflexivity]
    end; cbn; auto 40 |]); contradiction.
Qed.
Lemma endswith_app : forall q s, endswith q (s ++ q) = true.
Proof. intros. apply endswith_true. eauto. Qed.
Lemma endswith3 : forall q a b c, endswith q (a :: b :: c ++ q) = true.
Proof. intros. apply endswith_true. exists (a :: b :: c). auto. Qed.

Lemma ends_quote : forall p q body, endswith q (p ++ q ++ body ++ q) = true.
Proof. intros. apply endswith_true. exists (p ++ q ++ body). rewrite <- !app_assoc. auto. Qed.

Lemma find_skip : forall {A} (f : A -> bool) l1 l2, forallb (fun x => negb (f x)) l1 = true ->
  find f (l1 ++ l2) = find f l2.
Proof.
  induction l1; intros l2 H; cbn; auto. cbn in H. apply andb_true_iff in H as [H1 H2].
  destruct (f a); [discriminate|]. auto.
Qed.

(** Whether a literal starts with prefix and quote, decided on its first five characters *)
Lemma detect_ok : forall p q body, legal_prefix p -> legal_quote q -> fits q body ->
  detect_quotes (p ++ q ++ body ++ q) = Some (match p with [] => None | _ => Some p end, q).
Proof.
  intros p q body P Q F. apply legal_enum in P. pose proof (ends_quote p q body) as E.
  unfold legal_quote in Q. unfold detect_quotes, POSSIBLE_QUOTES.
  cbn [In] in Q.
  destruct Q as [<-|[<-|[<-|[<-|[]]]]].
  1: destruct body as [|c body]; [|assert (N : N.eqb 39 c = false) by
       (apply N.eqb_neq; intros <-; exact (F eq_refl 39%N body eq_refl eq_refl))].
  3: destruct body as [|c body]; [|assert (N : N.eqb 34 c = false) by
       (apply N.eqb_neq; intros <-; exact (F eq_refl 34%N body eq_refl eq_refl))].
  2: cbn in N.
  4: cbn in N.
  all: repeat (destruct P as [<-|P]; [cbn -[endswith] in E |- *; try rewrite !N; cbn -[endswith]; try rewrite E; reflexivity|]).
  all: contradiction.
Qed.

Lemma strip_ends_quoted : forall q body, strip_ends (length q) (q ++ body ++ q) = body.
Proof.
  intros. unfold strip_ends. rewrite !app_length.
  replace (length q + (length body + length q) - length q) with (length (q ++ body)) by (rewrite app_length; lia).
  rewrite app_assoc, firstn_app, firstn_all, Nat.sub_diag. cbn. rewrite app_nil_r.
  rewrite skipn_app, skipn_all, Nat.sub_diag. auto.
Qed.
Lemma requote_literal : forall p q sql, legal_quote q ->
  requote (match p with [] => None | _ => Some p end) q sql = literal p q sql.
Proof.
  intros p q sql Q. unfold requote, literal.
  unfold has_nl, has.
  destruct p as [|c p]; destruct (existsb (N.eqb 10) sql); destruct Q as [<-|[<-|[<-|[<-|[]]]]];
    cbn [length Nat.eqb andb tripled str_eqb]; reflexivity.
Qed.
Lemma handle_literal : forall p q body, legal_prefix p -> legal_quote q -> fits q body ->
  exists Q, q_sql Q = body
  /\ handle_sql_string (p ++ q ++ body ++ q) = (sql <- format_sql body ;; Ok (literal p q sql, Q)).
Proof.
  intros p q body P L F. unfold handle_sql_string. rewrite (detect_ok p q body P L F).
  assert (E : (match (match p with [] => None | _ => Some p end) with Some p0 => skipn (length p0) (p ++ q ++ body ++ q) | None => p ++ q ++ body ++ q end)
    = q ++ body ++ q).
  { destruct p; auto. rewrite skipn_app, skipn_all, Nat.sub_diag. auto. }
  cbv zeta. rewrite E, strip_ends_quoted. unfold format_sql, q_format, get_ast, new_query. cbn [q_ast q_sql].
  destruct (parse_sql body) as [n|e]; cbn.
  - exists (mk_query body (Some n) false []). split; auto. destruct (transform n); cbn; auto.
    rewrite requote_literal; auto.
  - exists (mk_query body None false []). auto.
Qed.
