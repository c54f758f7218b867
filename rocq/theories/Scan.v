(** Bracketed token lists, and what the token readers of the parser do on them. *)
From Verif Require Import PyStr Lib Tokeniser Ast Parser.
Local Open Scope str_scope.
Local Open Scope list_scope.

(** ** Bracketed token lists *)
Definition MARKS : list str := ["("; ")"; "["; "]"; "'"; """"; "`"].
Definition plain (t : str) : Prop := ~ In t MARKS /\ ~ In (lower t) ["case"; "end"; "with"; "timestamp_trunc"].
Definition WTE : list str := ["when"; "then"; "else"].
Definition minus (K L : list str) : list str := filter (fun k => negb (mem k L)) K.

(** [bl w K u]: brackets, literals and CASE ... END are closed in [u], and none of its tokens
    outside round and square brackets is in [K], except WHEN, THEN, ELSE inside CASE ... END, and
    OFFSET after WITH if [w] *)
Inductive bl (w : bool) (K : list str) : list str -> Prop :=
| bl_nil : bl w K []
| bl_tok : forall t u, plain t -> ~ In (lower t) K -> bl w K u -> bl w K (t :: u)
| bl_par : forall u v, bl true [] u -> bl w K v -> bl w K ("(" :: u ++ ")" :: v)
| bl_sq : forall u v, bl true [] u -> bl w K v -> bl w K ("[" :: u ++ "]" :: v)
| bl_case : forall c u e v, lower c = "case" -> lower e = "end" -> bl w (minus K WTE) u -> bl w K v -> bl w K (c :: u ++ e :: v)
| bl_str : forall q s v, In q QUOTES -> (s = [] \/ exists c, s = [c] /\ plain c /\ ~ In (lower c) K) ->
    bl w K v -> bl w K (q :: s ++ q :: v)
| bl_wo : forall a b v, w = true -> lower a = "with" -> lower b = "offset" -> bl w K v -> bl w K (a :: b :: v)
| bl_wi : forall a b v, lower a = "with" -> plain b -> lower b <> "offset" -> ~ In (lower b) K -> bl w K v -> bl w K (a :: b :: v).

Lemma bl_app : forall w K u v, bl w K u -> bl w K v -> bl w K (u ++ v).
Proof.
  intros w K u v H. revert v. induction H; intros x X; cbn [app]; rewrite <- ?app_assoc; cbn [app]; auto.
  - apply bl_tok; auto.
  - apply bl_par; auto.
  - apply bl_sq; auto.
  - apply bl_case; auto.
  - apply bl_str; auto.
  - apply bl_wo; auto.
  - apply bl_wi; auto.
Qed.
Lemma minus_In : forall K L x, In x (minus K L) <-> In x K /\ ~ In x L.
Proof.
  intros. unfold minus. rewrite filter_In, negb_true_iff, mem_false. tauto.
Qed.
Lemma bl_weak : forall w K u, bl w K u -> forall w' K', (w = true -> w' = true) -> incl K' K -> bl w' K' u.
Proof.
  intros w K u H. induction H; intros w' K' W I.
  - apply bl_nil.
  - apply bl_tok; auto.
  - apply bl_par; auto.
  - apply bl_sq; auto.
  - apply bl_case; auto. apply IHbl1; auto. intros x X. apply minus_In in X as [X Y]. apply minus_In. auto.
  - apply bl_str; auto. destruct H0 as [H0|(c & A & B & C)]; [auto|right; exists c; split; [auto|split; [auto|intros X; auto]]].
  - apply bl_wo; auto.
  - apply bl_wi; auto.
Qed.

(** ** Readers *)
Lemma str_eqb_case : forall a b, (str_eqb a b = true /\ a = b) \/ (str_eqb a b = false /\ a <> b).
Proof. intros a b. destruct (str_eqb_spec a b); auto. Qed.
Ltac seq a b := destruct (str_eqb_case a b) as [[-> ?]|[-> ?]].
Lemma plain_marks : forall t, plain t -> str_eqb t "(" = false /\ str_eqb t ")" = false /\ str_eqb t "[" = false /\ str_eqb t "]" = false
  /\ mem t QUOTES = false.
Proof.
  intros t [P _]. assert (Q : forall x, In x MARKS -> str_eqb t x = false).
  { intros x X. apply str_eqb_neq. intros ->. auto. }
  repeat split; try (apply Q; cbn; tauto). apply mem_false. intros X. apply P. cbn in *. tauto.
Qed.
Lemma plain_case : forall t, plain t -> str_eqb (lower t) "case" = false /\ str_eqb (lower t) "end" = false.
Proof. intros t [_ P]. split; apply str_eqb_neq; intros E; apply P; rewrite E; cbn; tauto. Qed.
Lemma lower_letters : forall a b, lower a = lower b -> a <> b -> existsb is_lower_c (lower b) = true.
Proof.
  induction a as [|c a IH]; intros [|d b] E N; cbn in *; try discriminate; [congruence|].
  injection E as E1 E2. destruct (is_lower_c (lower_c d)) eqn:L; auto. cbn. apply (IH b); auto. intros ->. apply N. f_equal.
  unfold lower_c, is_lower_c, is_upper_c in *.
  destruct ((65 <=? c) && (c <=? 90))%N eqn:C1; destruct ((65 <=? d) && (d <=? 90))%N eqn:D1;
  rewrite ?andb_true_iff, ?andb_false_iff, ?N.leb_le, ?N.leb_gt in *; lia.
Qed.
(** signs have no other spelling *)
Lemma lower_sign : forall a b, existsb is_lower_c b = false -> lower b = b -> lower a = b -> a = b.
Proof.
  intros a b N L E. destruct (list_eq_dec N.eq_dec a b); auto. exfalso.
  assert (X := lower_letters a b). rewrite L, N in X. discriminate X; congruence.
Qed.

Definition pre {A B} (u : list str) (r : R (list str * A * B)) : R (list str * A * B) :=
  '(a, n, ts) <- r ;; Ok (u ++ a, n, ts).
Lemma pre_app : forall {A B} u v (r : R (list str * A * B)), pre u (pre v r) = pre (u ++ v) r.
Proof. intros. destruct r as [[[? ?] ?]|]; cbn; auto. rewrite app_assoc. auto. Qed.
Lemma pre_nil : forall {A B} (r : R (list str * A * B)), pre [] r = r.
Proof. intros. destruct r as [[[? ?] ?]|]; auto. Qed.

(** *** until_close *)
Definition pre2 (u : list str) (r : R (list str * list str)) : R (list str * list str) :=
  '(a, ts) <- r ;; Ok (u ++ a, ts).
Lemma pre2_app : forall u v r, pre2 u (pre2 v r) = pre2 (u ++ v) r.
Proof. intros. destruct r as [[? ?]|]; cbn; auto. rewrite app_assoc. auto. Qed.
Lemma close_step : forall eos d t r, str_eqb t "(" = false -> str_eqb t ")" = false ->
  until_close_loop eos d (t :: r) = pre2 [t] (until_close_loop eos d r).
Proof. intros. cbn [until_close_loop]. rewrite H, H0. cbn [andb]. auto. Qed.
Lemma close_lp : forall eos d r, until_close_loop eos d ("(" :: r) = pre2 ["("] (until_close_loop eos (d + 1) r).
Proof. auto. Qed.
Lemma close_rp : forall eos d r, (0 <= d)%Z -> until_close_loop eos (d + 1) (")" :: r) = pre2 [")"] (until_close_loop eos d r).
Proof.
  intros. cbn [until_close_loop]. replace (Z.eqb (d + 1) 0) with false by (symmetry; apply Z.eqb_neq; lia).
  change (str_eqb ")" ")") with true. change (str_eqb ")" "(") with false. cbn [andb]. cbv iota.
  replace (d + 1 - 1)%Z with d by lia. auto.
Qed.
Lemma until_close_bl : forall w K u, bl w K u -> forall eos d v, (0 <= d)%Z ->
  until_close_loop eos d (u ++ v) = pre2 u (until_close_loop eos d v).
Proof.
  intros w K u H. induction H; intros eos d x D.
  - cbn [app]. destruct (until_close_loop eos d x) as [[? ?]|]; auto.
  - cbn [app]. destruct (plain_marks t H) as (P1 & P2 & _). rewrite close_step, IHbl, pre2_app by auto. auto.
  - cbn [app]; rewrite <- app_assoc; cbn [app].
    rewrite close_lp, IHbl1, close_rp, IHbl2, !pre2_app by lia. f_equal. cbn. rewrite <- app_assoc. auto.
  - cbn [app]; rewrite <- app_assoc; cbn [app].
    rewrite close_step, IHbl1, (close_step eos d "]"), IHbl2, !pre2_app by auto. f_equal. cbn. rewrite <- app_assoc. auto.
  - cbn [app]; rewrite <- app_assoc; cbn [app].
    rewrite close_step, IHbl1, (close_step eos d e), IHbl2, !pre2_app by
      (auto; apply str_eqb_neq; intros ->; discriminate). f_equal. cbn. rewrite <- app_assoc. auto.
  - cbn [app]; rewrite <- app_assoc; cbn [app].
    assert (Q : str_eqb q "(" = false /\ str_eqb q ")" = false).
    { cbn in H. destruct H as [<-|[<-|[<-|[]]]]; auto. } destruct Q as [Q1 Q2].
    rewrite close_step by auto. destruct H0 as [->|(c & -> & P & _)].
    + cbn [app]. rewrite close_step, IHbl, !pre2_app by auto. auto.
    + cbn [app]. destruct (plain_marks c P) as (P1 & P2 & _). rewrite close_step, (close_step eos d q), IHbl, !pre2_app by auto. auto.
  - cbn [app]. rewrite (close_step eos d a), (close_step eos d b), IHbl, !pre2_app by
      (auto; apply str_eqb_neq; intros ->; discriminate). auto.
  - cbn [app]. destruct (plain_marks b H0) as (P1 & P2 & _).
    rewrite (close_step eos d a), (close_step eos d b), IHbl, !pre2_app by
      (auto; apply str_eqb_neq; intros ->; discriminate). auto.
Qed.
Lemma until_close_ok : forall w K u r, bl w K u -> until_close None None (u ++ ")" :: r) = Ok (u, r).
Proof.
  intros w K u r H. unfold until_close. rewrite (until_close_bl w K u H) by lia. cbn. rewrite app_nil_r. auto.
Qed.
Lemma until_close_first : forall w K t u r, bl w K (t :: u) -> t <> [] -> until_close None (Some t) (u ++ ")" :: r) = Ok (t :: u, r).
Proof.
  intros w K t u r H N. unfold until_close. destruct t; [congruence|]. 
  etransitivity; [apply (until_close_bl w K _ H None 0%Z (")" :: r)); lia|]. cbn. rewrite app_nil_r. auto.
Qed.

(** *** until_one_of *)
Definition KEEP : list (str * str) := [("with", "offset")].
Definition keepw (w : bool) : list (str * str) := if w then KEEP else [].
Definition LU (w : bool) (stop : list str) := until_loop None stop (keepw w).
Lemma in_keep_no : forall w prev t, (forall p, prev = Some p -> lower p <> "with") -> in_keep prev t (keepw w) = false.
Proof.
  intros w prev t H. destruct prev as [p|]; auto. cbn. destruct w; auto. cbn.
  replace (str_eqb (lower p) "with") with false by (symmetry; apply str_eqb_neq; auto). auto.
Qed.
(** a token that is passed over *)
Definition passed (stop : list str) (par sq cas : Z) (t : str) : Prop :=
  ~ In (lower t) stop \/ (0 < par)%Z \/ (0 < sq)%Z \/ (0 < cas)%Z.
Lemma passed_test : forall stop par sq cas t b, passed stop par sq cas t ->
  mem (lower t) stop && (par <=? 0)%Z && (sq <=? 0)%Z && (cas <=? 0)%Z && b = false.
Proof.
  intros stop par sq cas t b [H|[H|[H|H]]].
  - apply mem_false in H. rewrite H. auto.
  - replace (par <=? 0)%Z with false by (symmetry; apply Z.leb_gt; lia). rewrite !andb_false_r. auto.
  - replace (sq <=? 0)%Z with false by (symmetry; apply Z.leb_gt; lia). rewrite !andb_false_r. auto.
  - replace (cas <=? 0)%Z with false by (symmetry; apply Z.leb_gt; lia). rewrite !andb_false_r. auto.
Qed.
Lemma lu_plain : forall w stop par sq cas prev t r, plain t -> passed stop par sq cas t ->
  LU w stop par sq cas prev (t :: r) = pre [t] (LU w stop par sq cas (Some t) r).
Proof.
  intros w stop par sq cas prev t r P H. unfold LU. cbn [until_loop]. rewrite passed_test by auto.
  destruct (plain_marks t P) as (-> & -> & -> & -> & _). destruct (plain_case t P) as (-> & ->). auto.
Qed.
Lemma lu_with : forall w stop par sq cas prev t r, lower t = "with" -> passed stop par sq cas t ->
  LU w stop par sq cas prev (t :: r) = pre [t] (LU w stop par sq cas (Some t) r).
Proof.
  intros w stop par sq cas prev t r P H. unfold LU. cbn [until_loop]. rewrite passed_test by auto. rewrite P.
  change (str_eqb "with" "case") with false. change (str_eqb "with" "end") with false.
  assert (N : forall x, In x MARKS -> str_eqb t x = false) by (intros x X; apply str_eqb_neq; intros ->; cbn in X;
    repeat (destruct X as [<-|X]; [discriminate P|]); auto).
  rewrite !N by (cbn; tauto). auto.
Qed.
Lemma lu_offset : forall stop par sq cas p t r, lower p = "with" -> lower t = "offset" ->
  LU true stop par sq cas (Some p) (t :: r) = pre [t] (LU true stop par sq cas (Some t) r).
Proof.
  intros stop par sq cas p t r P H. unfold LU. cbn [until_loop].
  assert (K : in_keep (Some p) t (keepw true) = true) by (cbn; rewrite P, H; auto). rewrite K. rewrite andb_false_r. rewrite H.
  change (str_eqb "offset" "case") with false. change (str_eqb "offset" "end") with false.
  assert (N : forall x, In x MARKS -> str_eqb t x = false) by (intros x X; apply str_eqb_neq; intros ->; cbn in X;
    repeat (destruct X as [<-|X]; [discriminate H|]); auto).
  rewrite !N by (cbn; tauto). auto.
Qed.
Lemma lu_quote : forall w stop par sq cas prev t r, In t QUOTES -> passed stop par sq cas t ->
  LU w stop par sq cas prev (t :: r) = pre [t] (LU w stop par sq cas (Some t) r).
Proof.
  intros w stop par sq cas prev t r P H. unfold LU. cbn [until_loop]. rewrite passed_test by auto.
  cbn in P. destruct P as [<-|[<-|[<-|[]]]]; auto.
Qed.
Lemma lu_lp : forall w stop par sq cas prev r, passed stop par sq cas "(" ->
  LU w stop par sq cas prev ("(" :: r) = pre ["("] (LU w stop (par + 1) sq cas (Some "(") r).
Proof. intros w stop par sq cas prev r H. unfold LU. cbn [until_loop]. rewrite passed_test by auto. auto. Qed.
Lemma lu_rp : forall w stop par sq cas prev r, passed stop par sq cas ")" ->
  LU w stop par sq cas prev (")" :: r) = pre [")"] (LU w stop (par - 1) sq cas (Some ")") r).
Proof. intros w stop par sq cas prev r H. unfold LU. cbn [until_loop]. rewrite passed_test by auto. auto. Qed.
Lemma lu_ls : forall w stop par sq cas prev r, passed stop par sq cas "[" ->
  LU w stop par sq cas prev ("[" :: r) = pre ["["] (LU w stop par (sq + 1) cas (Some "[") r).
Proof. intros w stop par sq cas prev r H. unfold LU. cbn [until_loop]. rewrite passed_test by auto. auto. Qed.
Lemma lu_rs : forall w stop par sq cas prev r, passed stop par sq cas "]" ->
  LU w stop par sq cas prev ("]" :: r) = pre ["]"] (LU w stop par (sq - 1) cas (Some "]") r).
Proof. intros w stop par sq cas prev r H. unfold LU. cbn [until_loop]. rewrite passed_test by auto. auto. Qed.
Lemma lu_case : forall w stop par sq cas prev t r, lower t = "case" -> passed stop par sq cas t ->
  LU w stop par sq cas prev (t :: r) = pre [t] (LU w stop par sq (cas + 1) (Some t) r).
Proof.
  intros w stop par sq cas prev t r P H. unfold LU. cbn [until_loop]. rewrite passed_test by auto. rewrite P.
  assert (N : forall x, In x MARKS -> str_eqb t x = false) by (intros x X; apply str_eqb_neq; intros ->; cbn in X;
    repeat (destruct X as [<-|X]; [discriminate P|]); auto).
  rewrite !N by (cbn; tauto). auto.
Qed.
Lemma lu_end : forall w stop par sq cas prev t r, lower t = "end" -> passed stop par sq cas t ->
  LU w stop par sq cas prev (t :: r) = pre [t] (LU w stop par sq (cas - 1) (Some t) r).
Proof.
  intros w stop par sq cas prev t r P H. unfold LU. cbn [until_loop]. rewrite passed_test by auto. rewrite P.
  assert (N : forall x, In x MARKS -> str_eqb t x = false) by (intros x X; apply str_eqb_neq; intros ->; cbn in X;
    repeat (destruct X as [<-|X]; [discriminate P|]); auto).
  rewrite !N by (cbn; tauto). auto.
Qed.

Definition lastp (prev : option str) (u : list str) : option str :=
  match u with [] => prev | _ => Some (last u []) end.
Lemma lastp_cons : forall prev t u, lastp prev (t :: u) = lastp (Some t) u.
Proof. intros. destruct u; auto. Qed.
Lemma lastp_app : forall prev u v, lastp prev (u ++ v) = lastp (lastp prev u) v.
Proof.
  intros prev u v. revert prev. induction u as [|t u IH]; intros; auto. cbn [app]. rewrite !lastp_cons. apply IH.
Qed.
(** Inside brackets, and inside a CASE, everything is passed over. *)
Lemma lu_inside : forall w K u, bl w K u -> forall stop par sq cas prev v, (0 < par \/ 0 < sq \/ 0 < cas)%Z ->
  (0 <= par)%Z -> (0 <= sq)%Z ->
  forall w', LU w' stop par sq cas prev (u ++ v) = pre u (LU w' stop par sq cas (lastp prev u) v).
Proof.
  intros w K u H. induction H; intros stop par sq cas prev x D D1 D2 w'; cbn [app]; rewrite <- ?app_assoc; cbn [app].
  - rewrite pre_nil. auto.
  - rewrite lu_plain, IHbl, pre_app, lastp_cons by (auto; unfold passed; lia). auto.
  - rewrite lu_lp, IHbl1, lu_rp, lastp_cons, lastp_app, lastp_cons by (unfold passed; lia).
    replace (par + 1 - 1)%Z with par by lia. rewrite IHbl2, !pre_app by lia. f_equal. cbn. rewrite <- app_assoc. auto.
  - rewrite lu_ls, IHbl1, lu_rs, lastp_cons, lastp_app, lastp_cons by (unfold passed; lia).
    replace (sq + 1 - 1)%Z with sq by lia. rewrite IHbl2, !pre_app by lia. f_equal. cbn. rewrite <- app_assoc. auto.
  - rewrite lu_case, IHbl1, lu_end, lastp_cons, lastp_app, lastp_cons by (auto; unfold passed; lia).
    replace (cas + 1 - 1)%Z with cas by lia. rewrite IHbl2, !pre_app by lia. f_equal. cbn. rewrite <- app_assoc. auto.
  - rewrite lu_quote by (auto; unfold passed; lia). rewrite lastp_cons, lastp_app, lastp_cons.
    destruct H0 as [->|(c & -> & P & _)]; cbn [app].
    + rewrite lu_quote, IHbl, !pre_app by (auto; unfold passed; lia). auto.
    + rewrite lu_plain, lu_quote, IHbl, !pre_app by (auto; unfold passed; lia). auto.
  - rewrite lu_with by (auto; unfold passed; lia). rewrite !lastp_cons.
    assert (X : LU w' stop par sq cas (Some a) (b :: v ++ x) = pre [b] (LU w' stop par sq cas (Some b) (v ++ x))).
    { unfold LU. cbn [until_loop]. rewrite passed_test by (unfold passed; lia). rewrite H1.
      change (str_eqb "offset" "case") with false. change (str_eqb "offset" "end") with false.
      assert (N : forall x, In x MARKS -> str_eqb b x = false) by (intros y X; apply str_eqb_neq; intros ->; cbn in X;
        repeat (destruct X as [<-|X]; [discriminate H1|]); auto).
      rewrite !N by (cbn; tauto). auto. }
    rewrite X, IHbl, !pre_app by auto. auto.
  - rewrite lu_with by (auto; unfold passed; lia). rewrite !lastp_cons.
    rewrite lu_plain, IHbl, !pre_app by (auto; unfold passed; lia). auto.
Qed.
Definition marks_ok (stop : list str) : Prop :=
  forall x, In x stop -> ~ In x ["("; "["; "'"; """"; "`"; "case"; "with"].
(** Outside brackets the tokens of a bracketed list are passed over if no stop is among them. *)
Lemma lu_bl : forall w K u, bl w K u -> forall w' stop cas prev v, incl stop K -> marks_ok stop ->
  (w = true -> w' = true \/ ~ In "offset" stop) ->
  ((0 <= cas)%Z \/ (forall x, In x stop -> ~ In x ("end" :: WTE))) ->
  LU w' stop 0 0 cas prev (u ++ v) = pre u (LU w' stop 0 0 cas (lastp prev u) v).
Proof.
  intros w K u H. induction H; intros w' stop cas prev x I M W C; cbn [app]; rewrite <- ?app_assoc; cbn [app].
  - rewrite pre_nil. auto.
  - rewrite lu_plain, IHbl, pre_app, lastp_cons; auto. left. intros X. auto.
  - rewrite lu_lp by (left; intros X; apply (M _ X); cbn; tauto).
    rewrite (lu_inside true [] u H), lu_rp, lastp_cons, lastp_app, lastp_cons by (unfold passed; lia).
    replace (0 + 1 - 1)%Z with 0%Z by lia. rewrite IHbl2, !pre_app by auto. f_equal. cbn. rewrite <- app_assoc. auto.
  - rewrite lu_ls by (left; intros X; apply (M _ X); cbn; tauto).
    rewrite (lu_inside true [] u H), lu_rs, lastp_cons, lastp_app, lastp_cons by (unfold passed; lia).
    replace (0 + 1 - 1)%Z with 0%Z by lia. rewrite IHbl2, !pre_app by auto. f_equal. cbn. rewrite <- app_assoc. auto.
  - rewrite lu_case by (auto; left; intros X; apply (M _ X); rewrite H; cbn; tauto).
    assert (IN : LU w' stop 0 0 (cas + 1) (Some c) (u ++ e :: v ++ x) = pre u (LU w' stop 0 0 (cas + 1) (lastp (Some c) u) (e :: v ++ x))).
    { destruct C as [C|C].
      - apply (lu_inside _ _ u H1); lia.
      - apply IHbl1; auto. intros y Y. apply minus_In. split; auto. intros Z. apply (C y); cbn in *; auto. }
    assert (PE : passed stop 0 0 (cas + 1) e).
    { destruct C as [C|C]; [unfold passed; lia|]. left; intros X; apply (C _ X); rewrite H0; cbn; tauto. }
    rewrite IN, lu_end, lastp_cons, lastp_app, lastp_cons by auto.
    replace (cas + 1 - 1)%Z with cas by lia. rewrite IHbl2, !pre_app by auto. f_equal. cbn. rewrite <- app_assoc. auto.
  - rewrite lu_quote by (auto; left; intros X; apply (M _ X); cbn in H; destruct H as [<-|[<-|[<-|[]]]]; cbn; tauto).
    rewrite lastp_cons, lastp_app, lastp_cons.
    destruct H0 as [->|(c & -> & P & Q)]; cbn [app].
    + rewrite lu_quote, IHbl, !pre_app by (auto; left; intros X; apply (M _ X); cbn in H; destruct H as [<-|[<-|[<-|[]]]]; cbn; tauto). auto.
    + rewrite lu_plain by (auto; left; intros X; auto).
      rewrite lu_quote, IHbl, !pre_app by (auto; left; intros X; apply (M _ X); cbn in H; destruct H as [<-|[<-|[<-|[]]]]; cbn; tauto). auto.
  - subst w. rewrite lu_with by (auto; left; intros X; apply (M _ X); rewrite H0; cbn; tauto).
    rewrite !lastp_cons. 
    assert (O : LU w' stop 0 0 cas (Some a) (b :: v ++ x) = pre [b] (LU w' stop 0 0 cas (Some b) (v ++ x))).
    { destruct w'; [apply lu_offset; auto|]. destruct (W eq_refl) as [?|N]; [discriminate|].
      apply lu_plain; [|left; rewrite H1; auto]. split; [|rewrite H1; cbn; intuition discriminate].
      intros X. cbn in X. repeat (destruct X as [<-|X]; [discriminate H1|]); auto. }
    rewrite O, IHbl, !pre_app by auto. auto.
  - rewrite lu_with by (auto; left; intros X; apply (M _ X); rewrite H; cbn; tauto). rewrite !lastp_cons.
    rewrite lu_plain, IHbl, !pre_app by (auto; left; intros X; auto). auto.
Qed.
Definition stopped (stop : list str) (r : list str) : Prop := match r with [] => True | t :: _ => In (lower t) stop end.
Lemma lu_fin : forall w stop cas prev r, (cas <= 0)%Z -> stopped stop r -> (forall p, prev = Some p -> lower p <> "with") ->
  LU w stop 0 0 cas prev r = Ok ([], hd_error r, tl r).
Proof.
  intros w stop cas prev [|t r] C S P; auto. unfold LU. cbn [until_loop]. rewrite in_keep_no by auto.
  apply mem_In in S. rewrite S. replace (cas <=? 0)%Z with true by (symmetry; apply Z.leb_le; lia). auto.
Qed.
Lemma bl_last : forall w K u, bl w K u -> u <> [] -> lower (last u []) <> "with".
Proof.
  assert (C : forall (t : str) v, v <> [] -> last (t :: v) [] = last v []) by (intros t [|? ?] ?; [congruence|auto]).
  assert (A : forall (u : list str) v, v <> [] -> last (u ++ v) [] = last v []).
  { induction u as [|t u IH]; intros v N; auto. cbn [app]. rewrite C by (destruct u; [auto|discriminate]). auto. }
  assert (B : forall (t : str) v (P : str -> Prop), P t -> (v <> [] -> P (last v [])) -> P (last (t :: v) [])).
  { intros t [|x v] P X Y; auto. rewrite C by discriminate. apply Y. discriminate. }
  intros w K u H. induction H; intros N; try congruence.
  - apply B; [|auto]. destruct H as [_ H]. intros X. apply H. rewrite X. cbn. tauto.
  - rewrite C by (destruct u; discriminate). rewrite A by discriminate. apply B; [discriminate|auto].
  - rewrite C by (destruct u; discriminate). rewrite A by discriminate. apply B; [discriminate|auto].
  - rewrite C by (destruct u; discriminate). rewrite A by discriminate. apply B; [rewrite H0; discriminate|auto].
  - rewrite C by (destruct s; discriminate). rewrite A by discriminate. apply B; [|auto].
    cbn in H. destruct H as [<-|[<-|[<-|[]]]]; discriminate.
  - rewrite C by discriminate. apply B; [rewrite H1; discriminate|auto].
  - rewrite C by discriminate. apply B; [|auto]. destruct H0 as [_ H0]. intros X. apply H0. rewrite X. cbn. tauto.
Qed.
Lemma bl_lastp : forall w K u prev, bl w K u -> (forall p, prev = Some p -> lower p <> "with") ->
  forall p, lastp prev u = Some p -> lower p <> "with".
Proof.
  intros w K [|t u] prev H P p E; [auto|]. assert (X := bl_last w K (t :: u) H ltac:(discriminate)).
  unfold lastp in E. congruence.
Qed.

(** [get_tokens_until_one_of] reads a bracketed list up to the first stop after it. *)
Lemma uo_ok : forall w K u, bl w K u -> forall w' stop r, incl stop K -> marks_ok stop ->
  (w = true -> w' = true \/ ~ In "offset" stop) -> stopped stop r ->
  until_one_of None stop None (keepw w') (u ++ r) = Ok (u, hd_error r, tl r).
Proof.
  intros w K u H w' stop r I M W S. unfold until_one_of. cbn [opt_eqb].
  assert (X := lu_bl w K u H w' stop 0%Z None r I M W ltac:(left; lia)). unfold LU in X. rewrite X.
  assert (Y := lu_fin w' stop 0%Z (lastp None u) r ltac:(lia) S). unfold LU in Y. rewrite Y.
  - cbn. rewrite app_nil_r. auto.
  - eapply bl_lastp; eauto. discriminate.
Qed.
Lemma uo_first : forall w K f u, bl w K (f :: u) -> forall w' stop r, incl stop K -> marks_ok stop ->
  (w = true -> w' = true \/ ~ In "offset" stop) -> stopped stop r ->
  ((forall x, In x stop -> ~ In x ("end" :: WTE)) \/ lower f <> "case") ->
  until_one_of None stop (Some f) (keepw w') (u ++ r) = Ok (f :: u, hd_error r, tl r).
Proof.
  intros w K f u H w' stop r I M W S C.
  assert (X : exists cas, (cas <= 0)%Z /\
    until_loop None stop (keepw w') (if opt_eqb (Some f) "(" then 1 else 0)%Z (if opt_eqb (Some f) "[" then 1 else 0)%Z
      (if opt_eqb (Some f) "case" then 1 else 0)%Z (Some f) (u ++ r) = pre u (LU w' stop 0 0 cas (lastp None (f :: u)) r)).
  { change (until_loop None stop (keepw w')) with (LU w' stop). rewrite lastp_cons.
    remember (f :: u) as x eqn:E. destruct H; try discriminate E.
    - injection E as -> ->. destruct (plain_marks f H) as (P1 & P2 & P3 & P4 & _). destruct (plain_case f H) as (P5 & _).
      cbn [opt_eqb]. rewrite P1, P3. exists 0%Z. split; [lia|].
      replace (str_eqb f "case") with false by (symmetry; apply str_eqb_neq; intros ->; discriminate P5).
      apply (lu_bl w K); auto. left; lia.
    - injection E as <- <-. exists 0%Z. split; [lia|]. rewrite <- app_assoc. cbn [app]. cbn [opt_eqb].
      change (str_eqb "(" "(") with true. change (str_eqb "(" "[") with false. change (str_eqb "(" "case") with false.
      rewrite (lu_inside true [] u0 H), lu_rp, lastp_app, lastp_cons by (unfold passed; lia).
      replace (1 - 1)%Z with 0%Z by lia. rewrite (lu_bl w K v H0), !pre_app by (auto; left; lia). f_equal. cbn. rewrite <- app_assoc. auto.
    - injection E as <- <-. exists 0%Z. split; [lia|]. rewrite <- app_assoc. cbn [app]. cbn [opt_eqb].
      change (str_eqb "[" "(") with false. change (str_eqb "[" "[") with true. change (str_eqb "[" "case") with false.
      rewrite (lu_inside true [] u0 H), lu_rs, lastp_app, lastp_cons by (unfold passed; lia).
      replace (1 - 1)%Z with 0%Z by lia. rewrite (lu_bl w K v H0), !pre_app by (auto; left; lia). f_equal. cbn. rewrite <- app_assoc. auto.
    - injection E as <- <-. destruct C as [C|C]; [|congruence].
      replace (opt_eqb (Some c) "(") with false by (symmetry; apply str_eqb_neq; intros ->; discriminate).
      replace (opt_eqb (Some c) "[") with false by (symmetry; apply str_eqb_neq; intros ->; discriminate).
      set (k := (if opt_eqb (Some c) "case" then 1 else 0)%Z). exists (k - 1)%Z. split; [subst k; destruct (opt_eqb (Some c) "case"); lia|].
      rewrite <- app_assoc. cbn [app]. rewrite (lu_bl w (minus K WTE) u0 H1), lu_end, lastp_app, lastp_cons;
        auto.
      + rewrite (lu_bl w K v H2), !pre_app by auto. f_equal. cbn. rewrite <- app_assoc. auto.
      + left. intros X. apply (C _ X). rewrite H0. cbn; tauto.
      + intros y Y. apply minus_In. split; auto. intros Z. apply (C y); cbn in *; auto.
    - injection E as <- <-. exists 0%Z. split; [lia|].
      assert (Q : opt_eqb (Some q) "(" = false /\ opt_eqb (Some q) "[" = false /\ opt_eqb (Some q) "case" = false).
      { cbn in H. destruct H as [<-|[<-|[<-|[]]]]; auto. } destruct Q as (-> & -> & ->).
      rewrite <- app_assoc. cbn [app]. rewrite lastp_app, lastp_cons.
      assert (Q : passed stop 0 0 0 q) by (left; intros X; apply (M _ X); cbn in H; destruct H as [<-|[<-|[<-|[]]]]; cbn; tauto).
      destruct H0 as [->|(c & -> & P & Q1)]; cbn [app].
      + rewrite lu_quote, (lu_bl w K v H1), !pre_app by (auto; left; lia). auto.
      + rewrite lu_plain by (auto; left; intros X; auto). rewrite lu_quote, (lu_bl w K v H1), !pre_app by (auto; left; lia). auto.
    - injection E as <- <-. exists 0%Z. split; [lia|]. subst w.
      assert (Q : opt_eqb (Some a) "(" = false /\ opt_eqb (Some a) "[" = false /\ opt_eqb (Some a) "case" = false).
      { repeat split; apply str_eqb_neq; intros ->; discriminate. } destruct Q as (-> & -> & ->).
      cbn [app]. rewrite !lastp_cons. 
      assert (O : LU w' stop 0 0 0 (Some a) (b :: v ++ r) = pre [b] (LU w' stop 0 0 0 (Some b) (v ++ r))).
      { destruct w'; [apply lu_offset; auto|]. destruct (W eq_refl) as [?|N]; [discriminate|].
        apply lu_plain; [|left; rewrite H1; auto]. split; [|rewrite H1; cbn; intuition discriminate].
        intros X. cbn in X. repeat (destruct X as [<-|X]; [discriminate H1|]); auto. }
      rewrite O, (lu_bl true K v H2), !pre_app by (auto; left; lia). auto.
    - injection E as <- <-. exists 0%Z. split; [lia|].
      assert (Q : opt_eqb (Some a) "(" = false /\ opt_eqb (Some a) "[" = false /\ opt_eqb (Some a) "case" = false).
      { repeat split; apply str_eqb_neq; intros ->; discriminate. } destruct Q as (-> & -> & ->).
      cbn [app]. rewrite !lastp_cons. rewrite lu_plain by (auto; left; intros X; auto).
      rewrite (lu_bl w K v H3), !pre_app by (auto; left; lia). auto. }
  destruct X as (cas & L & X). unfold until_one_of. rewrite X.
  rewrite lu_fin; auto.
  - cbn. rewrite app_nil_r. auto.
  - eapply bl_lastp; eauto. discriminate.
Qed.

(** *** ExpressionListParser *)
Section Lists.
Variable P : parsers_t.
Variable cbt : bool.
Definition item (acc : list str) : R node := '(e, _, _) <- p_expr P None (mk_eopts false cbt true [] None false) acc ;; Ok e.
(** the loop, seen from the token that it looks at *)
Definition xl (acc : list str) (par sq : Z) (ins : bool) (ts : list str) : R (list node) :=
  match ts with
  | [] => e <- item acc ;; Ok [e]
  | n :: r =>
    if str_eqb n "," && Z.eqb par 0 && Z.eqb sq 0 && negb ins then
      e <- item acc ;; es <- exprlist_loop P cbt [] par sq ins r ;; Ok (e :: es)
    else exprlist_loop P cbt acc par sq ins (n :: r)
  end.
Definition xstate (t : str) (par sq : Z) (ins : bool) : Z * Z * bool :=
  if str_eqb t "(" then ((par + 1)%Z, sq, ins)
  else if str_eqb t ")" then ((par - 1)%Z, sq, ins)
  else if str_eqb t "[" then (par, (sq + 1)%Z, ins)
  else if str_eqb t "]" then (par, (sq - 1)%Z, ins)
  else if mem t QUOTES then (par, sq, negb ins)
  else (par, sq, ins).
Lemma xl_loop : forall acc par sq ins t r, exprlist_loop P cbt acc par sq ins (t :: r) =
  (let '(p, s, i) := xstate t par sq ins in xl (acc ++ [t]) p s i r).
Proof.
  intros. cbn [exprlist_loop]. unfold xstate. 
  destruct (str_eqb t "("); [|destruct (str_eqb t ")"); [|destruct (str_eqb t "["); [|destruct (str_eqb t "]"); [|destruct (mem t QUOTES)]]]];
  unfold xl, item; destruct r as [|n r]; destruct (p_expr P None _ (acc ++ [t])) as [[[? ?] ?]|]; cbn [rbind]; auto;
  destruct (_ && _); auto.
Qed.
Lemma xl_step : forall acc par sq ins t r, (t <> "," \/ par <> 0%Z \/ sq <> 0%Z \/ ins = true) ->
  xl acc par sq ins (t :: r) = (let '(p, s, i) := xstate t par sq ins in xl (acc ++ [t]) p s i r).
Proof.
  intros acc par sq ins t r H. rewrite <- xl_loop. cbn [xl].
  replace (str_eqb t "," && Z.eqb par 0 && Z.eqb sq 0 && negb ins) with false; auto. symmetry.
  destruct (str_eqb_spec t ","); auto. destruct (Z.eqb_spec par 0); auto. destruct (Z.eqb_spec sq 0); auto. destruct ins; auto.
  exfalso. intuition congruence.
Qed.
Lemma xs_plain : forall t par sq ins, plain t -> xstate t par sq ins = (par, sq, ins).
Proof.
  intros t par sq ins H. unfold xstate. destruct (plain_marks t H) as (-> & -> & -> & -> & ->). auto.
Qed.
Lemma word_plain : forall t k, lower t = k -> existsb is_lower_c k = true -> ~ In t MARKS.
Proof. intros t k E L X. cbn in X. repeat (destruct X as [<-|X]; [rewrite <- E in L; discriminate L|]). auto. Qed.
Lemma xs_word : forall t k par sq ins, lower t = k -> existsb is_lower_c k = true -> xstate t par sq ins = (par, sq, ins).
Proof.
  intros t k par sq ins E L. assert (W := word_plain t k E L). unfold xstate.
  assert (Q : forall x, In x MARKS -> str_eqb t x = false) by (intros x X; apply str_eqb_neq; intros ->; auto).
  rewrite !Q by (cbn; tauto). replace (mem t QUOTES) with false; auto.
  symmetry. apply mem_false. intros X. apply W. cbn in *. tauto.
Qed.
Lemma xs_quote : forall t par sq ins, In t QUOTES -> xstate t par sq ins = (par, sq, negb ins).
Proof. intros t par sq ins H. cbn in H. destruct H as [<-|[<-|[<-|[]]]]; auto. Qed.
Lemma word_comma : forall t k, lower t = k -> existsb is_lower_c k = true -> t <> ",".
Proof. intros t k E L ->. rewrite <- E in L. discriminate L. Qed.
Lemma quote_comma : forall t, In t QUOTES -> t <> ",".
Proof. intros t H. cbn in H. destruct H as [<-|[<-|[<-|[]]]]; discriminate. Qed.
Lemma xl_bl : forall w K u, bl w K u -> forall acc par sq v, (0 <= par)%Z -> (0 <= sq)%Z ->
  (In "," K \/ 0 < par \/ 0 < sq)%Z ->
  xl acc par sq false (u ++ v) = xl (acc ++ u) par sq false v.
Proof.
  intros w K u H. induction H; intros acc par sq x A B D; cbn [app]; rewrite <- ?app_assoc; cbn [app].
  - rewrite app_nil_r. auto.
  - assert (T : t <> "," \/ par <> 0%Z \/ sq <> 0%Z \/ false = true) by (destruct D as [D|D]; [left; intros ->; auto|right; lia]).
    rewrite xl_step, xs_plain by auto.
    rewrite IHbl, <- app_assoc by auto. auto.
  - rewrite xl_step by (left; discriminate). cbn [xstate]. change (xstate "(" par sq false) with ((par + 1)%Z, sq, false). cbv iota beta.
    rewrite IHbl1 by lia. rewrite xl_step by (left; discriminate). change (xstate ")" (par + 1) sq false) with ((par + 1 - 1)%Z, sq, false).
    cbv iota beta. replace (par + 1 - 1)%Z with par by lia. rewrite IHbl2, <- !app_assoc by auto. auto.
  - rewrite xl_step by (left; discriminate). change (xstate "[" par sq false) with (par, (sq + 1)%Z, false). cbv iota beta.
    rewrite IHbl1 by lia. rewrite xl_step by (left; discriminate). change (xstate "]" par (sq + 1) false) with (par, (sq + 1 - 1)%Z, false).
    cbv iota beta. replace (sq + 1 - 1)%Z with sq by lia. rewrite IHbl2, <- !app_assoc by auto. auto.
  - rewrite xl_step, (xs_word c "case") by (auto; left; eapply word_comma; eauto).
    rewrite IHbl1 by (auto; destruct D as [D|D]; auto; left; apply minus_In; split; auto; cbn; intuition discriminate).
    rewrite xl_step, (xs_word e "end") by (auto; left; eapply word_comma; eauto).
    rewrite IHbl2, <- !app_assoc by auto. auto.
  - assert (QC := quote_comma _ H). rewrite xl_step, xs_quote by auto. cbn [negb]. destruct H0 as [->|(c & -> & P1 & Q1)]; cbn [app].
    + rewrite xl_step, xs_quote by auto. cbn [negb]. rewrite IHbl, <- !app_assoc by auto. auto.
    + rewrite xl_step, xs_plain by auto. rewrite xl_step, xs_quote by auto. cbn [negb]. rewrite IHbl, <- !app_assoc by auto. auto.
  - rewrite xl_step, (xs_word a "with") by (auto; left; eapply word_comma; eauto).
    rewrite xl_step, (xs_word b "offset") by (auto; left; eapply word_comma; eauto).
    rewrite IHbl, <- !app_assoc by auto. auto.
  - rewrite xl_step, (xs_word a "with") by (auto; left; eapply word_comma; eauto).
    assert (T : b <> "," \/ par <> 0%Z \/ sq <> 0%Z \/ false = true) by (destruct D as [D|D]; [left; intros ->; auto|right; lia]).
    rewrite xl_step, xs_plain by auto. rewrite IHbl, <- !app_assoc by auto. auto.
Qed.
Lemma bl_comma : forall w K t u, bl w K (t :: u) -> In "," K -> t <> ",".
Proof.
  intros w K t u H C. remember (t :: u) as x eqn:E. destruct H; try discriminate E; injection E as <- <-; try discriminate.
  - intros ->. auto.
  - intros ->. discriminate.
  - apply quote_comma. auto.
  - intros ->. discriminate.
  - intros ->. discriminate.
Qed.
Lemma exprlist_xl : forall w K u v, bl w K u -> u <> [] -> In "," K -> exprlist P cbt (u ++ v) = xl [] 0 0 false (u ++ v).
Proof.
  intros w K [|t u] v H N C; [congruence|]. unfold exprlist. cbn [app xl].
  replace (str_eqb t ",") with false; auto. symmetry. apply str_eqb_neq. eapply bl_comma; eauto.
Qed.
Lemma exprlist_one : forall w K u e, bl w K u -> u <> [] -> In "," K -> item u = Ok e -> exprlist P cbt u = Ok [e].
Proof.
  intros w K u e H N C I. rewrite <- (app_nil_r u), (exprlist_xl w K u []), (xl_bl w K u) by (auto; lia).
  cbn. rewrite I. auto.
Qed.
Lemma exprlist_more : forall w K u v e es, bl w K u -> u <> [] -> In "," K -> item u = Ok e -> exprlist P cbt v = Ok es ->
  exprlist P cbt (u ++ "," :: v) = Ok (e :: es).
Proof.
  intros w K u v e es H N C I J. rewrite (exprlist_xl w K u), (xl_bl w K u) by (auto; lia).
  cbn [app xl]. rewrite I. cbn [rbind andb Z.eqb negb]. change (str_eqb "," ",") with true. cbn [andb].
  unfold exprlist in J. rewrite J. auto.
Qed.
End Lists.

(** *** until_not_in *)
Lemma uni_loop : forall kept u r, Forall (fun t => In (lower t) kept) u ->
  match r with [] => True | t :: _ => ~ In (lower t) kept end ->
  until_not_in_loop None kept (u ++ r) = Ok (u, hd_error r, tl r).
Proof.
  intros kept u r H R. induction H; cbn [app until_not_in_loop].
  - destruct r as [|t r]; auto. cbn [until_not_in_loop]. apply mem_false in R. rewrite R. auto.
  - apply mem_In in H. rewrite H, IHForall. auto.
Qed.
Lemma uni_ok : forall kept f u r, Forall (fun t => In (lower t) kept) u ->
  match r with [] => True | t :: _ => ~ In (lower t) kept end ->
  until_not_in None kept (Some f) (u ++ r) = Ok (f :: u, hd_error r, tl r).
Proof. intros kept f u r H R. unfold until_not_in. rewrite uni_loop by auto. auto. Qed.
