(** Proofs about the tokeniser. *)
From Verif Require Import PyStr Lib Tokeniser SpecTok.
Local Open Scope str_scope.
Local Open Scope list_scope.

(** ** split *)
Lemma split_nonnil : forall k s, split k s <> [].
Proof. induction s; cbn; [discriminate|]. destruct (N.eqb a k); [discriminate|]. destruct (split k s); discriminate. Qed.
Lemma split_none : forall k s, ~ In k s -> split k s = [s].
Proof.
  induction s; cbn; intros H; auto. destruct (N.eqb_spec a k); [subst; exfalso; auto|].
  rewrite IHs; auto.
Qed.
Lemma split_mid : forall k x y, ~ In k x -> split k (x ++ k :: y) = x :: split k y.
Proof.
  induction x; cbn; intros y H.
  - rewrite N.eqb_refl. auto.
  - destruct (N.eqb_spec a k); [subst; exfalso; auto|]. rewrite IHx; auto.
Qed.
Lemma split_pre : forall k x y p ps, ~ In k x -> split k y = p :: ps -> split k (x ++ y) = (x ++ p) :: ps.
Proof.
  induction x; cbn; intros y p ps H E; auto.
  destruct (N.eqb_spec a k); [subst; exfalso; auto|]. rewrite (IHx y p ps); auto.
Qed.
Lemma split_parts : forall k s, Forall (fun p => ~ In k p /\ incl p s
  /\ exists x y, s = x ++ p ++ y /\ (y = [] \/ exists y', y = k :: y')) (split k s).
Proof.
  assert (MAIN : forall k s, match split k s with
    | [] => False
    | p :: ps => (~ In k p /\ incl p s /\ exists y, s = p ++ y /\ (y = [] \/ exists y', y = k :: y'))
       /\ Forall (fun p => ~ In k p /\ incl p s
            /\ exists x y, s = x ++ p ++ y /\ (y = [] \/ exists y', y = k :: y')) ps
    end).
  { induction s; cbn.
    - split; [|constructor]. split; [intros []|]. split; [intros ? []|]. exists []. auto.
    - assert (UP : forall ps, Forall (fun p => ~ In k p /\ incl p s
            /\ exists x y, s = x ++ p ++ y /\ (y = [] \/ exists y', y = k :: y')) ps ->
          Forall (fun p => ~ In k p /\ incl p (a :: s)
            /\ exists x y, a :: s = x ++ p ++ y /\ (y = [] \/ exists y', y = k :: y')) ps).
      { intros ps F. eapply Forall_impl; [|exact F]. cbn. intros p (A & B & x & y & -> & D).
        split; auto. split; [intros z Z; right; auto|]. exists (a :: x), y. auto. }
      destruct (split k s) as [|p ps]; [contradiction|]. destruct IHs as [(A & B & y & -> & D) F].
      destruct (N.eqb_spec a k).
      + subst. split.
        * split; [intros []|]. split; [intros ? []|]. exists (k :: p ++ y). split; auto. right. eauto.
        * apply UP. constructor; auto. split; auto. split; auto. exists [], y. auto.
      + split; auto. split; [intros [X|X]; auto|]. split; [|exists y; auto].
        intros x [->|X]; [left; auto|right; auto]. }
  intros k s. assert (M := MAIN k s). destruct (split k s) as [|p ps]; [contradiction|].
  destruct M as [(A & B & y & C & D) F]. constructor; auto. split; auto. split; auto. exists [], y. auto.
Qed.
Lemma join_split : forall k s, join [k] (split k s) = s.
Proof.
  induction s; cbn; auto. destruct (N.eqb_spec a k).
  - subst. destruct (split k s) eqn:E; [exfalso; apply (split_nonnil k s E)|]. cbn in *. rewrite IHs. auto.
  - destruct (split k s) as [|p ps] eqn:E; [exfalso; apply (split_nonnil k s E)|].
    destruct ps; cbn in *; congruence.
Qed.

(** ** tame text: no gluing *)
Lemma kept_separator : forall k, In k KEPT_SPLIT_TOKENS <-> separator k.
Proof.
  intros. unfold separator. cbn. split; intros H.
  - repeat (destruct H as [<-|H]; [repeat (first [left; reflexivity | right])|]). contradiction.
  - repeat (destruct H as [H|H]; [injection H as <-; auto 20|]). contradiction.
Qed.
Lemma blank_ws : forall c, In c WHITESPACE_SPLIT_TOKENS <-> blank c.
Proof. intros. unfold blank. cbn. intuition. Qed.
Definition specials : list N := STRING_SPLIT_TOKENS ++ WHITESPACE_SPLIT_TOKENS ++ KEPT_SPLIT_TOKENS.
Lemma tame_part : forall s k x p y, tame s -> In k specials -> s = x ++ p ++ y -> (y = [] \/ exists y', y = k :: y') ->
  tame p /\ endswith [backslash] p = false.
Proof.
  intros s k x p y T K E Y.
  assert (G : forall a b, p = a ++ 92%N :: b -> exists c b', b = c :: b' /\ ~ In c [39; 34; 96]%N /\ ~ blank c /\ ~ separator c).
  { intros a b ->. destruct (T (x ++ a) (b ++ y)) as (c & b' & A & B & C & D).
    { rewrite E. rewrite <- !app_assoc. auto. }
    destruct b as [|c0 b]; cbn in A.
    - destruct Y as [->|[y' ->]]; [discriminate|]. injection A as -> ->. exfalso.
      apply in_app_or in K as [K|K]; [auto|]. apply in_app_or in K as [K|K]; [apply blank_ws in K|apply kept_separator in K]; auto.
    - injection A as -> <-. exists c, b. auto. }
  split; [exact G|]. destruct (endswith [backslash] p) eqn:X; auto. apply endswith_true in X as [r ->].
  destruct (G r [] eq_refl) as (c & b' & A & _). discriminate.
Qed.
Lemma split_tame : forall k s, tame s -> In k specials ->
  Forall (fun p => (~ In k p /\ incl p s /\ tame p) /\ endswith [backslash] p = false) (split k s).
Proof.
  intros k s T K. eapply Forall_impl; [|apply split_parts]. cbn beta. intros p (A & B & x & y & C & D).
  destruct (tame_part s k x p y T K C D). auto.
Qed.
Lemma glue_id : forall k l, Forall (fun p => endswith [backslash] p = false) l -> glue k l = l.
Proof.
  induction l; intros H; cbn [glue]; auto. inversion H; subst. rewrite H2, IHl; auto.
Qed.
Lemma swe_id : forall k s, tame s -> In k specials -> split_with_escaping s k = split k s.
Proof.
  intros. apply glue_id. eapply Forall_impl; [|apply split_tame; eauto]. cbn. tauto.
Qed.
Lemma sws_eq : forall k s, tame s -> In k specials -> split_with_sep s k = interleave k (split k s).
Proof. intros. unfold split_with_sep. rewrite swe_id; auto. Qed.
Lemma sp_quote : forall k, In k STRING_SPLIT_TOKENS -> In k specials.
Proof. intros. apply in_or_app. auto. Qed.
Lemma sp_ws : forall k, In k WHITESPACE_SPLIT_TOKENS -> In k specials.
Proof. intros. apply in_or_app. right. apply in_or_app. auto. Qed.
Lemma sp_kept : forall k, In k KEPT_SPLIT_TOKENS -> In k specials.
Proof. intros. apply in_or_app. right. apply in_or_app. auto. Qed.
Global Hint Resolve sp_quote sp_ws sp_kept : tok.
Lemma interleave_concat : forall k l, concat (interleave k l) = join [k] l.
Proof.
  intros k. assert (NE : forall w, concat (nonempty w) = w) by (destruct w; cbn; [|rewrite app_nil_r]; auto).
  induction l as [|w [|v l] IH]; [reflexivity|apply NE|].
  change (interleave k (w :: v :: l)) with (nonempty w ++ [k] :: interleave k (v :: l)).
  rewrite concat_app, NE. cbn [concat]. rewrite IH. reflexivity.
Qed.
Lemma interleave_elems : forall k l, Forall (fun p => ~ In k p) l ->
  Forall (fun e => e <> [] /\ (e = [k] \/ In e l /\ ~ In k e)) (interleave k l).
Proof.
  intros k. assert (NE : forall w, ~ In k w -> Forall (fun e => e <> [] /\ (e = [k] \/ e = w /\ ~ In k e)) (nonempty w)).
  { destruct w; cbn; intros H; constructor; auto. split; [discriminate|auto]. }
  induction l as [|w [|v l] IH]; intros H; inversion H; subst.
  - constructor.
  - eapply Forall_impl; [|apply (NE w); auto]. cbn. intros e (A & [B|[B1 B2]]); split; auto.
  - change (interleave k (w :: v :: l)) with (nonempty w ++ [k] :: interleave k (v :: l)).
    apply Forall_app. split.
    + eapply Forall_impl; [|apply (NE w); auto]. cbn. intros e (A & [B|[B1 B2]]); split; auto.
    + constructor; [split; [discriminate|auto]|]. eapply Forall_impl; [|apply IH; auto].
      cbn beta. intros e (A & [B|[B1 B2]]); split; auto. right. split; auto. right. auto.
Qed.
(** the pieces of a separated text *)
Lemma pieces_split : forall k s, tame s -> In k specials ->
  Forall (fun e => e <> [] /\ (e = [k] \/ tame e /\ incl e s /\ ~ In k e)) (interleave k (split k s)).
Proof.
  intros k s H K.
  assert (F := split_tame k s H K).
  assert (F1 : Forall (fun p => ~ In k p) (split k s)) by (eapply Forall_impl; [|exact F]; cbn; tauto).
  assert (E := interleave_elems k _ F1). rewrite Forall_forall in F, E |- *. intros e I.
  destruct (E e I) as (A & [B|[B1 B2]]); split; auto. right. destruct (F e B1) as [(? & ? & ?) ?]. auto.
Qed.
Lemma pieces : forall k s, tame s -> In k specials ->
  Forall (fun e => e <> [] /\ (e = [k] \/ tame e /\ incl e s /\ ~ In k e)) (split_with_sep s k).
Proof. intros. rewrite sws_eq by auto. apply pieces_split; auto. Qed.
Lemma pieces_concat : forall k s, concat (interleave k (split k s)) = s.
Proof. intros. rewrite interleave_concat, join_split by auto. auto. Qed.

(** ** the recursion depth *)
Fixpoint nodupb {A} (eqb : A -> A -> bool) (l : list A) : bool :=
  match l with [] => true | a :: r => negb (existsb (eqb a) r) && nodupb eqb r end.
Lemma nodupb_ok : forall {A} (eqb : A -> A -> bool), (forall a b, eqb a b = true <-> a = b) ->
  forall l, nodupb eqb l = true -> NoDup l.
Proof.
  intros A eqb E. induction l; cbn; intros H; constructor; apply andb_true_iff in H as [H1 H2]; auto.
  intros I. apply negb_true_iff in H1. assert (X : existsb (eqb a) l = true); [|congruence].
  apply existsb_exists. exists a. split; auto. apply E. auto.
Qed.
Definition mu (s : str) : nat := length (filter (fun c => has c s) specials).
Lemma filter_length_le : forall {A} (f g : A -> bool) l, (forall x, In x l -> f x = true -> g x = true) ->
  length (filter f l) <= length (filter g l).
Proof.
  induction l; cbn; intros H; auto. assert (IH := IHl (fun x I => H x (or_intror I))).
  destruct (f a) eqn:F; [rewrite (H a (or_introl eq_refl) F); cbn; lia|]. destruct (g a); cbn; lia.
Qed.
Lemma filter_length_lt : forall {A} (f g : A -> bool) l a, (forall x, In x l -> f x = true -> g x = true) ->
  In a l -> f a = false -> g a = true -> length (filter f l) < length (filter g l).
Proof.
  induction l; cbn; intros x H I F G; [contradiction|].
  assert (LE := filter_length_le f g l (fun y J => H y (or_intror J))).
  destruct I as [->|I].
  - rewrite F, G. cbn. lia.
  - assert (IH := IHl x (fun y J => H y (or_intror J)) I F G).
    destruct (f a) eqn:FA; [rewrite (H a (or_introl eq_refl) FA); cbn; lia|]. destruct (g a); cbn; lia.
Qed.
Lemma mu_lt : forall e s k, incl e s -> In k specials -> ~ In k e -> In k s -> mu e < mu s.
Proof.
  intros e s k I S NE K. apply filter_length_lt with (a := k); auto.
  - intros x _ H. apply has_In. apply has_In in H. auto.
  - apply has_false. auto.
  - apply has_In. auto.
Qed.
Lemma mu_20 : forall s, mu s <= 20.
Proof.
  intros. unfold mu. etransitivity; [apply (filter_length_le _ (fun _ => true)); auto|]. cbn. lia.
Qed.
Lemma specials_nodup : NoDup specials.
Proof. apply (nodupb_ok N.eqb N.eqb_eq). reflexivity. Qed.
Lemma mu_length : forall s, mu s <= length s.
Proof.
  intros. unfold mu. apply NoDup_incl_length.
  - apply NoDup_filter. apply specials_nodup.
  - intros c I. apply filter_In in I as [_ I]. apply has_In in I. auto.
Qed.

(** agreement of two recursors *)
Lemma string_parts_ext : forall (r1 r2 : str -> stream) q elems b,
  (forall e, In e elems -> e <> [q] -> r1 e = r2 e /\ snd (r1 e) = None) ->
  string_parts r1 q b elems = string_parts r2 q b elems /\ snd (string_parts r1 q b elems) = None.
Proof.
  induction elems as [|e elems IH]; intros b H; cbn [string_parts]; auto.
  assert (H' : forall e0, In e0 elems -> e0 <> [q] -> r1 e0 = r2 e0 /\ snd (r1 e0) = None) by (intros; apply H; auto; right; auto).
  destruct (str_eqb_spec e [q]).
  - destruct (IH (negb b) H') as [A B]. rewrite A. split; auto. cbn. rewrite <- A. auto.
  - destruct b.
    + destruct (IH true H') as [A B]. rewrite A. split; auto. cbn. rewrite <- A. auto.
    + destruct (IH false H') as [A B]. destruct (H e (or_introl eq_refl) n) as [C D]. rewrite <- A, <- C.
      split; auto. unfold sapp. rewrite D. cbn. auto.
Qed.
Lemma flat_stream_ext : forall (r1 r2 : str -> stream) elems,
  (forall e, In e elems -> r1 e = r2 e /\ snd (r1 e) = None) ->
  flat_stream r1 elems = flat_stream r2 elems /\ snd (flat_stream r1 elems) = None.
Proof.
  induction elems as [|e elems IH]; intros H; cbn [flat_stream]; auto.
  destruct IH as [A B]; [intros; apply H; right; auto|].
  destruct (H e (or_introl eq_refl)) as [C D]. rewrite <- A, <- C. split; auto. unfold sapp. rewrite D. cbn. auto.
Qed.
Lemma find_quote_In : forall s q, find is_quote s = Some q -> In q s /\ In q STRING_SPLIT_TOKENS.
Proof.
  intros s q H. apply find_some in H as [H1 H2]. split; auto. unfold is_quote in H2.
  apply existsb_exists in H2 as (x & I & E). apply N.eqb_eq in E. subst. auto.
Qed.
Lemma sep_only : forall k m, In k KEPT_SPLIT_TOKENS -> split_tokens (S m) [k] = ([[k]], None).
Proof.
  intros k m I. cbn in I. repeat (destruct I as [<-|I]; [reflexivity|]). contradiction.
Qed.
Lemma stable : forall n s, tame s -> mu s <= n ->
  forall m, n <= m -> split_tokens (S m) s = split_tokens (S n) s /\ snd (split_tokens (S m) s) = None.
Proof.
  induction n as [n IH] using lt_wf_ind. intros s NB M m L.
  (* pieces e of s without a special k of s *)
  assert (REC : forall k e, tame e -> In k specials -> In k s -> ~ In k e -> incl e s ->
     exists n' m', n = S n' /\ m = S m' /\ split_tokens m e = split_tokens n e /\ snd (split_tokens m e) = None).
  { intros k e T K1 K2 K3 I. assert (LT := mu_lt e s k I K1 K3 K2).
    destruct n as [|n']; [lia|]. destruct m as [|m']; [lia|]. exists n', m'. split; auto. split; auto.
    apply (IH n' (Nat.lt_succ_diag_r n') e T ltac:(lia) m' ltac:(lia)). }
  cbn [split_tokens]. destruct (find is_quote s) as [q|] eqn:FQ.
  - destruct (find_quote_In _ _ FQ) as [Q1 Q2]. apply string_parts_ext. intros e I NE.
    assert (P := pieces q s NB (sp_quote _ Q2)). rewrite Forall_forall in P.
    destruct (P e I) as (_ & [X|(X0 & X1 & X2)]); [contradiction|].
    destruct (REC q e) as (n' & m' & -> & -> & A); auto with tok.
  - destruct (find (fun w => has w s) WHITESPACE_SPLIT_TOKENS) as [w|] eqn:FW.
    + apply find_some in FW as [W1 W2]. apply has_In in W2. apply flat_stream_ext. intros e I.
      apply filter_In in I as [I _]. assert (P := split_tame w s NB (sp_ws _ W1)). rewrite Forall_forall in P.
      destruct (P e I) as [(X1 & X2 & X3) _]. destruct (REC w e) as (n' & m' & -> & -> & A); auto with tok.
    + destruct (find (fun k => has k s && negb (str_eqb s [k])) KEPT_SPLIT_TOKENS) as [k|] eqn:FK; auto.
      apply find_some in FK as [K1 K2]. apply andb_true_iff in K2 as [K2 K3]. apply has_In in K2.
      destruct (N.eqb k 46 && is_number_text s); auto.
      apply flat_stream_ext. intros e I. assert (P := pieces k s NB (sp_kept _ K1)). rewrite Forall_forall in P.
      assert (MP : 0 < mu s).
      { apply (Nat.le_lt_trans _ (mu [])); [lia|]. apply mu_lt with (k := k); auto with tok. intros ? []. }
      destruct (P e I) as (_ & [->|(X0 & X1 & X2)]).
      * destruct n; [lia|]. destruct m; [lia|]. rewrite !sep_only by auto. auto.
      * destruct (REC k e) as (n' & m' & -> & -> & A); auto with tok.
Qed.
(** the tokens of a text *)
Definition raw (s : str) : list str := fst (raw_tokens s).
Lemma raw_spec : forall s m, tame s -> mu s < m -> split_tokens m s = (raw s, None).
Proof.
  intros s m NB L. destruct m as [|m]; [lia|].
  destruct (stable (mu s) s NB (le_n _) m ltac:(lia)) as [A B].
  destruct (stable (mu s) s NB (le_n _) (length s) (mu_length s)) as [C D].
  unfold raw, raw_tokens. rewrite C, <- A. destruct (split_tokens (S m) s) as [l e]. cbn [fst snd] in *. subst. auto.
Qed.
Lemma raw_tokens_eq : forall s, tame s -> raw_tokens s = (raw s, None).
Proof. intros. apply raw_spec; auto. pose proof (mu_length s). lia. Qed.

(** ** equations for [raw] *)
Fixpoint string_raw (q : N) (b : bool) (elems : list str) : list str :=
  match elems with
  | [] => []
  | e :: r =>
    if str_eqb e [q] then e :: string_raw q (negb b) r
    else if b then e :: string_raw q b r
    else raw e ++ string_raw q b r
  end.
Lemma string_parts_raw : forall (r : str -> stream) q elems b,
  (forall e, In e elems -> e <> [q] -> r e = (raw e, None)) ->
  string_parts r q b elems = (string_raw q b elems, None).
Proof.
  induction elems as [|e elems IH]; intros b H; cbn [string_parts string_raw]; auto.
  assert (H' : forall e0, In e0 elems -> e0 <> [q] -> r e0 = (raw e0, None)) by (intros; apply H; auto; right; auto).
  destruct (str_eqb_spec e [q]); [rewrite IH; auto|]. destruct b; [rewrite IH; auto|].
  rewrite (H e (or_introl eq_refl) n), IH; auto.
Qed.
Lemma flat_stream_raw : forall (r : str -> stream) elems,
  (forall e, In e elems -> r e = (raw e, None)) -> flat_stream r elems = (flat_map raw elems, None).
Proof.
  induction elems as [|e elems IH]; intros H; cbn [flat_stream flat_map]; auto.
  rewrite (H e (or_introl eq_refl)), IH by (intros; apply H; right; auto). auto.
Qed.
Lemma raw_piece : forall s k e, In k specials -> In k s -> incl e s -> ~ In k e -> tame e ->
  split_tokens (length s) e = (raw e, None).
Proof.
  intros. apply raw_spec; auto. assert (mu e < mu s) by (eapply mu_lt; eauto). pose proof (mu_length s). lia.
Qed.
Lemma raw_quote : forall s q, tame s -> find is_quote s = Some q ->
  raw s = string_raw q false (interleave q (split q s)).
Proof.
  intros s q NB F. assert (E := raw_tokens_eq s NB). unfold raw_tokens in E. cbn [split_tokens] in E. rewrite F in E.
  destruct (find_quote_In _ _ F) as [Q1 Q2].
  rewrite string_parts_raw in E. { injection E as <-. rewrite sws_eq; auto with tok. }
  intros e I NE.
  assert (P := pieces q s NB (sp_quote _ Q2)). rewrite Forall_forall in P.
  destruct (P e I) as (_ & [X|(X0 & X1 & X2)]); [contradiction|].
  eapply raw_piece; eauto with tok.
Qed.
Lemma no_quote_find : forall s, quote_free s -> find is_quote s = None.
Proof.
  intros s Q. destruct (find is_quote s) eqn:F; auto. apply find_quote_In in F as [A B]. exfalso. apply (Q n A B).
Qed.
Lemma raw_ws : forall s w, tame s -> quote_free s -> find (fun w => has w s) WHITESPACE_SPLIT_TOKENS = Some w ->
  raw s = flat_map raw (filter (fun e => negb (str_eqb e [])) (split w s)).
Proof.
  intros s w NB Q F. assert (E := raw_tokens_eq s NB). unfold raw_tokens in E. cbn [split_tokens] in E.
  rewrite no_quote_find, F in E by auto. apply find_some in F as [W1 W2]. apply has_In in W2.
  rewrite flat_stream_raw in E. { injection E as <-. auto. }
  intros e I. apply filter_In in I as [I _]. assert (P := split_tame w s NB (sp_ws _ W1)). rewrite Forall_forall in P.
  destruct (P e I) as [(X1 & X2 & X3) _]. eapply raw_piece; eauto with tok.
Qed.
Lemma raw_sep : forall k, In k KEPT_SPLIT_TOKENS -> raw [k] = [[k]].
Proof. intros k I. unfold raw, raw_tokens. cbn [length]. rewrite sep_only by auto. auto. Qed.
Lemma raw_kept : forall s k, tame s -> quote_free s -> find (fun w => has w s) WHITESPACE_SPLIT_TOKENS = None ->
  find (fun k => has k s && negb (str_eqb s [k])) KEPT_SPLIT_TOKENS = Some k ->
  raw s = if N.eqb k 46 && is_number_text s then [s] else flat_map raw (interleave k (split k s)).
Proof.
  intros s k NB Q FW F. assert (E := raw_tokens_eq s NB). unfold raw_tokens in E. cbn [split_tokens] in E.
  rewrite no_quote_find, FW, F in E by auto. destruct (N.eqb k 46 && is_number_text s); [injection E as <-; auto|].
  apply find_some in F as [K1 K2]. apply andb_true_iff in K2 as [K2 K3]. apply has_In in K2.
  rewrite flat_stream_raw in E. { injection E as <-. rewrite sws_eq; auto with tok. }
  intros e I.
  assert (P := pieces k s NB (sp_kept _ K1)). rewrite Forall_forall in P.
  assert (LS : 0 < length s) by (destruct s; [destruct K2|cbn; lia]).
  destruct (P e I) as (_ & [->|(X0 & X1 & X2)]).
  - destruct (length s); [lia|]. rewrite sep_only, raw_sep by auto. auto.
  - eapply raw_piece; eauto with tok.
Qed.
Lemma raw_plain : forall s, tame s -> quote_free s -> find (fun w => has w s) WHITESPACE_SPLIT_TOKENS = None ->
  find (fun k => has k s && negb (str_eqb s [k])) KEPT_SPLIT_TOKENS = None -> raw s = [s].
Proof.
  intros s NB Q FW FK. assert (E := raw_tokens_eq s NB). unfold raw_tokens in E. cbn [split_tokens] in E.
  rewrite no_quote_find, FW, FK in E by auto. injection E as <-. auto.
Qed.

(** Induction over the way the tokeniser takes a text apart *)
Lemma find_app : forall {A} (f : A -> bool) a b,
  find f (a ++ b) = match find f a with Some x => Some x | None => find f b end.
Proof. induction a; cbn; intros; auto. destruct (f a); auto. Qed.
Definition no_kept (s : str) : Prop := forall k, In k KEPT_SPLIT_TOKENS -> ~ In k s.
Definition only_dots (s : str) : Prop := forall k, In k KEPT_SPLIT_TOKENS -> k <> 46%N -> ~ In k s.
Lemma only_dots_find : forall s, find (fun k => has k s && negb (str_eqb s [k])) KEPT_SPLIT_TOKENS = Some 46%N ->
  only_dots s.
Proof.
  intros s F k K NE I. assert (D := F). apply find_some in D as [_ D]. apply andb_true_iff in D as [D _]. apply has_In in D.
  change KEPT_SPLIT_TOKENS with ([44; 59; 40; 41; 91; 93; 43; 45; 42; 47; 61; 60; 62] ++ [46])%N in *.
  rewrite find_app in F. set (pre := [44; 59; 40; 41; 91; 93; 43; 45; 42; 47; 61; 60; 62]%N) in *.
  destruct (find (fun k => has k s && negb (str_eqb s [k])) pre) as [x|] eqn:FP.
  - injection F as ->. apply find_some in FP as [FP _]. cbn in FP. intuition discriminate.
  - apply in_app_or in K as [K|[K|[]]]; [|auto]. assert (X := find_none _ _ FP k K). cbn in X.
    apply has_In in I. rewrite I in X. cbn in X. destruct (str_eqb_spec s [k]) as [->|]; [|discriminate].
    destruct D as [D|[]]. auto.
Qed.
Lemma raw_ind : forall (P : str -> list str -> Prop),
  (forall s q, tame s -> find is_quote s = Some q ->
     (forall e, tame e -> incl e s -> ~ In q e -> P e (raw e)) -> P s (string_raw q false (interleave q (split q s)))) ->
  (forall s w, tame s -> quote_free s -> In w WHITESPACE_SPLIT_TOKENS -> In w s ->
     (forall e, tame e -> incl e s -> ~ In w e -> P e (raw e)) ->
     P s (flat_map raw (filter (fun e => negb (str_eqb e [])) (split w s)))) ->
  (forall s k, tame s -> quote_free s -> (forall w, In w WHITESPACE_SPLIT_TOKENS -> ~ In w s) ->
     In k KEPT_SPLIT_TOKENS -> In k s -> s <> [k] -> (k = 46%N -> only_dots s /\ is_number_text s = false) ->
     (forall e, tame e -> incl e s -> ~ In k e -> P e (raw e)) ->
     P s (flat_map raw (interleave k (split k s)))) ->
  (forall s, tame s -> quote_free s -> (forall w, In w WHITESPACE_SPLIT_TOKENS -> ~ In w s) ->
     (no_kept s \/ (exists k, In k KEPT_SPLIT_TOKENS /\ s = [k]) \/ is_number_text s = true /\ only_dots s) -> P s [s]) ->
  forall s, tame s -> P s (raw s).
Proof.
  intros P HQ HW HK HP.
  assert (MAIN : forall n s, mu s < n -> tame s -> P s (raw s)).
  2:{ intros s. apply (MAIN (S (mu s))). lia. }
  induction n as [|n IH]; intros s M NB; [lia|].
  destruct (find is_quote s) as [q|] eqn:FQ.
  - rewrite (raw_quote s q NB FQ). apply HQ; auto. intros e T I NE. apply IH; auto.
    destruct (find_quote_In _ _ FQ) as [Q1 Q2].
    assert (mu e < mu s) by (apply mu_lt with (k := q); auto with tok). lia.
  - assert (QF : quote_free s).
    { intros c I J. assert (X := find_none _ _ FQ c I). unfold is_quote in X.
      assert (Y : existsb (N.eqb c) STRING_SPLIT_TOKENS = true) by (apply existsb_exists; exists c; split; auto; apply N.eqb_refl).
      congruence. }
    destruct (find (fun w => has w s) WHITESPACE_SPLIT_TOKENS) as [w|] eqn:FW.
    + rewrite (raw_ws s w NB QF FW). apply find_some in FW as [W1 W2]. apply has_In in W2. apply HW; auto.
      intros e T I NE. apply IH; auto.
      assert (mu e < mu s) by (apply mu_lt with (k := w); auto with tok). lia.
    + assert (NW : forall w, In w WHITESPACE_SPLIT_TOKENS -> ~ In w s).
      { intros w I J. assert (X := find_none _ _ FW w I). cbn in X. apply has_false in X. auto. }
      destruct (find (fun k => has k s && negb (str_eqb s [k])) KEPT_SPLIT_TOKENS) as [k|] eqn:FK.
      * rewrite (raw_kept s k NB QF FW FK). assert (FK' := FK).
        apply find_some in FK as [K1 K2]. apply andb_true_iff in K2 as [K2 K3].
        apply has_In in K2. destruct (N.eqb k 46 && is_number_text s) eqn:NT.
        -- apply andb_true_iff in NT as [E NT]. apply N.eqb_eq in E. subst. apply HP; auto. right. right.
           split; auto. apply only_dots_find. auto.
        -- apply HK; auto.
           ++ intros ->. rewrite str_eqb_refl in K3. discriminate.
           ++ intros ->. split; [apply only_dots_find; auto|]. rewrite N.eqb_refl in NT. auto.
           ++ intros e T I NE. apply IH; auto.
              assert (mu e < mu s) by (apply mu_lt with (k := k); auto with tok). lia.
      * rewrite (raw_plain s NB QF FW FK). apply HP; auto.
        destruct (existsb (fun k => has k s) KEPT_SPLIT_TOKENS) eqn:X.
        -- apply existsb_exists in X as (k & K1 & K2). right. left. exists k. split; auto.
           assert (Y := find_none _ _ FK k K1). cbn in Y. rewrite K2 in Y. cbn in Y.
           destruct (str_eqb_spec s [k]); auto. discriminate.
        -- left. intros k I J. assert (Y : existsb (fun k => has k s) KEPT_SPLIT_TOKENS = true).
           { apply existsb_exists. exists k. split; auto. apply has_In. auto. }
           congruence.
Qed.

(** ** C01 *)
Lemma db_refl : forall s, drops_blanks s s.
Proof. induction s; constructor; auto. Qed.
Lemma db_app : forall a a' b b', drops_blanks a a' -> drops_blanks b b' -> drops_blanks (a ++ b) (a' ++ b').
Proof. intros a a' b b' H. induction H; cbn; intros; auto; constructor; auto. Qed.
Lemma raw_db : forall s, tame s -> drops_blanks s (concat (raw s)).
Proof.
  apply (raw_ind (fun s l => drops_blanks s (concat l))).
  - intros s q NB F IH. rewrite <- (pieces_concat q s) at 1. destruct (find_quote_In _ _ F) as [Q1 Q2].
    assert (P := pieces_split q s NB (sp_quote _ Q2)).
    revert P. generalize false. induction (interleave q (split q s)) as [|e l IHl]; intros b P; cbn; [constructor|].
    inversion P as [|? ? H1 H2]; subst. destruct (str_eqb_spec e [q]); [|destruct b]; cbn.
    + apply db_app; [apply db_refl|auto].
    + apply db_app; [apply db_refl|auto].
    + rewrite concat_app. apply db_app; auto. destruct H1 as (_ & [->|(A & B & C)]); [contradiction|auto].
  - intros s w NB Q W1 W2 IH. rewrite <- (join_split w s) at 1.
    assert (P := split_tame w s NB (sp_ws _ W1)). apply blank_ws in W1.
    induction (split w s) as [|e l IHl]; [constructor|].
    inversion P as [|? ? [(A & B & C) _] P']; subst.
    assert (HE : drops_blanks e (concat (flat_map raw (filter (fun e => negb (str_eqb e [])) [e])))).
    { cbn. destruct (str_eqb_spec e []); cbn; [subst; constructor|]. rewrite app_nil_r. auto. }
    destruct l as [|e' l].
    + exact HE.
    + change (join [w] (e :: e' :: l)) with (e ++ ([w] ++ join [w] (e' :: l))).
      change (e :: e' :: l) with ([e] ++ e' :: l). rewrite filter_app, flat_map_app, concat_app.
      apply db_app; auto. cbn [app]. apply db_drop; auto.
  - intros s k NB Q NW K1 K2 NE _ IH. rewrite <- (pieces_concat k s) at 1.
    assert (P := pieces_split k s NB (sp_kept _ K1)).
    induction (interleave k (split k s)) as [|e l IHl]; cbn; [constructor|].
    inversion P as [|? ? H1 H2]; subst. rewrite concat_app. apply db_app; auto.
    destruct H1 as (_ & [->|(A & B & C)]); auto. rewrite raw_sep by auto. apply db_refl.
  - intros. cbn. rewrite app_nil_r. apply db_refl.
Qed.

(** ** C05, raw part *)
Definition simple (t : str) : Prop :=
  (forall w, In w WHITESPACE_SPLIT_TOKENS -> ~ In w t)
  /\ (no_kept t \/ (exists k, In k KEPT_SPLIT_TOKENS /\ t = [k]) \/ is_number_text t = true).
Lemma quote_free_incl : forall e s, quote_free s -> incl e s -> quote_free e.
Proof. unfold quote_free. intros e s H I c J. apply H. auto. Qed.
Lemma raw_simple : forall s, tame s -> quote_free s -> Forall simple (raw s).
Proof.
  intros s NB Q. revert s NB Q. apply (raw_ind (fun s l => quote_free s -> Forall simple l)).
  - intros s q NB F IH Q. rewrite no_quote_find in F by auto. discriminate.
  - intros s w NB Q W1 W2 IH _. apply Forall_flat_map. apply Forall_forall. intros e I. apply filter_In in I as [I _].
    assert (P := split_tame w s NB (sp_ws _ W1)). rewrite Forall_forall in P. destruct (P e I) as [(A & B & C) _].
    apply IH; auto. eapply quote_free_incl; eauto.
  - intros s k NB Q NW K1 K2 NE _ IH _. apply Forall_flat_map. apply Forall_forall. intros e I.
    assert (P := pieces_split k s NB (sp_kept _ K1)). rewrite Forall_forall in P.
    destruct (P e I) as (_ & [->|(A & B & C)]).
    + rewrite raw_sep by auto. constructor; auto. split; [|right; left; eauto].
      intros w W [<-|[]]. apply (NW k W K2).
    + apply IH; auto. eapply quote_free_incl; eauto.
  - intros s NB Q NW H _. constructor; auto. split; tauto.
Qed.

(** ** C06 *)
Lemma goals_nodup : forall p, length (filter (fun g => str_eqb p g) MERGE_TOKENS) <= 1.
Proof.
  intros p. assert (N : NoDup MERGE_TOKENS) by (apply (nodupb_ok str_eqb str_eqb_eq); reflexivity).
  induction MERGE_TOKENS as [|g l IH]; cbn; auto. inversion N; subst.
  destruct (str_eqb_spec p g); [|auto]. subst. cbn.
  assert (filter (fun g0 => str_eqb g g0) l = []) as ->; auto.
  clear IH N H2. induction l; cbn; auto. destruct (str_eqb_spec g a); [subst; exfalso; apply H1; left; auto|].
  apply IHl. intros I. apply H1. right. auto.
Qed.
Lemma filter_filter_le : forall {A} (f g : A -> bool) l, length (filter f (filter g l)) <= length (filter f l).
Proof. induction l; cbn; auto. destruct (g a); cbn; destruct (f a); cbn; lia. Qed.
Lemma merge_spec : forall l eos,
  snd (merge_stream MERGE_TOKENS l eos) = eos
  /\ (eos = None -> concat (fst (merge_stream MERGE_TOKENS l eos)) = concat l)
  /\ (forall t, In t (fst (merge_stream MERGE_TOKENS l eos)) -> In t l \/ In t MERGE_TOKENS).
Proof.
  intros l. remember (length l) as n eqn:LN. assert (LE : length l <= n) by lia. clear LN. revert l LE.
  induction n as [|n IH]; intros l LE eos.
  { destruct l; [|cbn in LE; lia]. cbn. auto. }
  destruct l as [|e r]; [cbn; auto|]. cbn in LE. cbn [merge_stream].
  destruct (filter (fun g => startswith e g) MERGE_TOKENS) as [|m ms] eqn:FM.
  - destruct (IH r ltac:(lia) eos) as (A & B & C). cbn. split; auto. split; [intros H; rewrite B; auto|].
    intros t [->|I]; auto. destruct (C t I); auto.
  - destruct r as [|x r].
    + destruct eos; cbn; intuition; congruence.
    + cbn in LE. destruct (IH r ltac:(lia) eos) as (A & B & C).
      destruct x as [|c x].
      * cbn. split; auto. split; [intros H; rewrite B; auto|]. intros t [->|I]; auto. destruct (C t I); auto.
      * destruct (filter (fun g => str_eqb (e ++ c :: x) g) (m :: ms)) as [|g [|g' gs]] eqn:FG.
        -- cbn. split; auto. split; [intros H; rewrite B; auto|].
           intros t [->|[->|I]]; auto. destruct (C t I); auto.
        -- assert (G : In g (filter (fun g => str_eqb (e ++ c :: x) g) (m :: ms))) by (rewrite FG; left; auto).
           apply filter_In in G as [G1 G2]. apply str_eqb_eq in G2. rewrite <- FM in G1. apply filter_In in G1 as [G1 _].
           cbn. split; auto. split.
           ++ intros H. rewrite B by auto. rewrite <- G2. rewrite <- app_assoc. auto.
           ++ intros t [->|I]; auto. destruct (C t I); auto.
        -- exfalso. assert (X := filter_filter_le (fun g => str_eqb (e ++ c :: x) g) (fun g => startswith e g) MERGE_TOKENS).
           rewrite FM, FG in X. assert (Y := goals_nodup (e ++ c :: x)). cbn [length] in X. lia.
Qed.
