(** The tokeniser in one pass: text outside literals, literals, joining of operators. *)
From Verif Require Import PyStr Lib Tokeniser SpecTok ProofTok.
Local Open Scope str_scope.
Local Open Scope list_scope.

(** ** One pass over text without literals *)
Definition cut (c : N) : bool := is_kept c && negb (N.eqb c 46).
Fixpoint items (s : str) : list str :=
  match s with
  | [] => []
  | c :: r =>
    if is_ws c then items r
    else if cut c then [c] :: items r
    else match r with
         | [] => [[c]]
         | d :: _ => if is_ws d || cut d then [c] :: items r
                     else match items r with i :: is => (c :: i) :: is | [] => [[c]] end
         end
  end.
Lemma items_cons : forall c r, items (c :: r) =
    if is_ws c then items r
    else if cut c then [c] :: items r
    else match r with
         | [] => [[c]]
         | d :: _ => if is_ws d || cut d then [c] :: items r
                     else match items r with i :: is => (c :: i) :: is | [] => [[c]] end
         end.
Proof. reflexivity. Qed.
Definition chunk (t : str) : list str :=
  match t with
  | [c] => [t]
  | _ => if is_number_text t then [t] else interleave 46 (split 46 t)
  end.
(** the tokens of a text, none for the empty text *)
Definition raw0 (s : str) : list str := match s with [] => [] | _ => raw s end.

Lemma is_ws_In : forall c, is_ws c = true <-> In c WHITESPACE_SPLIT_TOKENS.
Proof.
  intros. unfold is_ws. rewrite existsb_exists. split.
  - intros (x & I & E). apply N.eqb_eq in E. subst. auto.
  - intros I. exists c. split; auto. apply N.eqb_refl.
Qed.
Lemma is_kept_In : forall c, is_kept c = true <-> In c KEPT_SPLIT_TOKENS.
Proof.
  intros. unfold is_kept. rewrite existsb_exists. split.
  - intros (x & I & E). apply N.eqb_eq in E. subst. auto.
  - intros I. exists c. split; auto. apply N.eqb_refl.
Qed.
Lemma is_quote_In : forall c, is_quote c = true <-> In c STRING_SPLIT_TOKENS.
Proof.
  intros. unfold is_quote. rewrite existsb_exists. split.
  - intros (x & I & E). apply N.eqb_eq in E. subst. auto.
  - intros I. exists c. split; auto. apply N.eqb_refl.
Qed.
Lemma cut_true : forall c, cut c = true <-> In c KEPT_SPLIT_TOKENS /\ c <> 46%N.
Proof.
  intros. unfold cut. rewrite andb_true_iff, is_kept_In, negb_true_iff, N.eqb_neq. tauto.
Qed.
Lemma ws_not_cut : forall c, is_ws c = true -> cut c = false.
Proof.
  intros c H. apply is_ws_In in H. cbn in H.
  destruct H as [<-|[<-|[<-|[]]]]; reflexivity.
Qed.
Lemma items_cons_ne : forall c r, is_ws c = false -> cut c = false -> exists i is, items (c :: r) = (c :: i) :: is.
Proof.
  intros c r W C. rewrite items_cons, W, C. destruct r as [|d r]; [eauto|].
  destruct (is_ws d || cut d); [eauto|]. destruct (items (d :: r)); eauto.
Qed.
Definition sep_item (c : N) : list str := if is_ws c then [] else [[c]].
(** cutting at a blank or separator *)
Lemma items_app : forall a c b, is_ws c || cut c = true -> items (a ++ c :: b) = items a ++ sep_item c ++ items b.
Proof.
  intros a c b H. induction a as [|x a IH].
  - cbn [app items]. unfold sep_item. destruct (is_ws c); auto. cbn in H. rewrite H. auto.
  - cbn [app]. rewrite !(items_cons x). destruct (is_ws x) eqn:WX; [rewrite IH; auto|].
    destruct (cut x) eqn:CX; [rewrite IH; auto|].
    destruct a as [|y a].
    + cbn [app] in *. rewrite H. rewrite IH. auto.
    + change ((y :: a) ++ c :: b) with (y :: (a ++ c :: b)) in *. cbv iota beta.
      destruct (is_ws y || cut y) eqn:WY; [rewrite IH; auto|].
      rewrite IH. apply orb_false_iff in WY as [Y1 Y2].
      destruct (items_cons_ne y a Y1 Y2) as (i & is & E). rewrite E. auto.
Qed.
Lemma items_plain : forall s, s <> [] -> (forall c, In c s -> is_ws c = false /\ cut c = false) -> items s = [s].
Proof.
  induction s as [|c s IH]; intros NE H; [congruence|]. rewrite items_cons.
  destruct (H c (or_introl eq_refl)) as [W C]. rewrite W, C. destruct s as [|d s]; auto.
  destruct (H d (or_intror (or_introl eq_refl))) as [W2 C2]. rewrite W2, C2. cbn [orb].
  rewrite IH; auto; [congruence|]. intros x I. apply H. right. auto.
Qed.
Lemma items_split_ws : forall w s, is_ws w = true -> items s = flat_map items (filter (fun e => negb (str_eqb e [])) (split w s)).
Proof.
  intros w s W. rewrite <- (join_split w s) at 1. induction (split w s) as [|e l IH]; auto.
  assert (HE : items e = flat_map items (filter (fun e => negb (str_eqb e [])) [e])).
  { cbn. destruct (str_eqb_spec e []); cbn; [subst; auto|]. rewrite app_nil_r. auto. }
  destruct l as [|e' l]; auto.
  change (join [w] (e :: e' :: l)) with (e ++ w :: join [w] (e' :: l)).
  change (e :: e' :: l) with ([e] ++ e' :: l). rewrite filter_app, flat_map_app, <- HE, <- IH.
  rewrite items_app by (rewrite W; auto). unfold sep_item. rewrite W. auto.
Qed.
Lemma items_split_cut : forall k s, cut k = true -> items s = flat_map items (interleave k (split k s)).
Proof.
  intros k s C. rewrite <- (join_split k s) at 1.
  assert (NW : is_ws k = false) by (destruct (is_ws k) eqn:W; auto; apply ws_not_cut in W; congruence).
  assert (NEm : forall e, items e = flat_map items (nonempty e)) by (destruct e; cbn; [|rewrite app_nil_r]; auto).
  induction (split k s) as [|e l IH]; auto. destruct l as [|e' l]; [apply NEm|].
  change (join [k] (e :: e' :: l)) with (e ++ k :: join [k] (e' :: l)).
  change (interleave k (e :: e' :: l)) with (nonempty e ++ [k] :: interleave k (e' :: l)).
  rewrite flat_map_app, <- NEm. cbn [flat_map]. rewrite <- IH.
  rewrite items_app by (rewrite C; apply orb_true_r). unfold sep_item. rewrite NW.
  f_equal. rewrite items_cons, NW, C. auto.
Qed.
Lemma flat_map_flat_map : forall {A B C} (f : A -> list B) (g : B -> list C) l,
  flat_map g (flat_map f l) = flat_map (fun x => flat_map g (f x)) l.
Proof. induction l; cbn; auto. rewrite flat_map_app, IHl. auto. Qed.
Lemma flat_map_ext_in : forall {A B} (f g : A -> list B) l, (forall x, In x l -> f x = g x) -> flat_map f l = flat_map g l.
Proof. induction l; cbn; intros H; auto. rewrite H, IHl; auto. Qed.
Lemma no_kept_chunk : forall t, t <> [] -> no_kept t -> chunk t = [t].
Proof.
  intros t NE NK. assert (D : ~ In 46%N t) by (apply NK; apply is_kept_In; reflexivity).
  unfold chunk. destruct t as [|c [|d t]]; [congruence|auto|].
  assert (is_number_text (c :: d :: t) = false) as ->.
  { unfold is_number_text. apply has_false in D. rewrite D. auto. }
  rewrite split_none by auto. auto.
Qed.
Lemma raw_plain_eq : forall e, tame e -> quote_free e -> (forall w, In w WHITESPACE_SPLIT_TOKENS -> ~ In w e) -> no_kept e ->
  raw e = [e].
Proof.
  intros e T Q W K. apply raw_plain; auto.
  - destruct (find _ WHITESPACE_SPLIT_TOKENS) eqn:F; auto. apply find_some in F as [F1 F2]. apply has_In in F2. exfalso. eapply W; eauto.
  - destruct (find _ KEPT_SPLIT_TOKENS) eqn:F; auto. apply find_some in F as [F1 F2]. apply andb_true_iff in F2 as [F2 _].
    apply has_In in F2. exfalso. eapply K; eauto.
Qed.
Theorem raw0_items : forall s, tame s -> quote_free s -> raw0 s = flat_map chunk (items s).
Proof.
  assert (MAIN : forall s, tame s -> quote_free s -> s <> [] -> raw s = flat_map chunk (items s)).
  2:{ intros s T Q. destruct s; auto. apply MAIN; auto. discriminate. }
  intros s T. revert s T. apply (raw_ind (fun s l => quote_free s -> s <> [] -> l = flat_map chunk (items s))).
  - intros s q NB F IH Q. rewrite no_quote_find in F by auto. discriminate.
  - intros s w NB Q W1 W2 IH _ _. rewrite (items_split_ws w s) by (apply is_ws_In; auto).
    rewrite flat_map_flat_map. apply flat_map_ext_in. intros e I. apply filter_In in I as [I NE].
    assert (P := split_tame w s NB (sp_ws _ W1)). rewrite Forall_forall in P. destruct (P e I) as [(A & B & C) _].
    apply IH; auto; [eapply quote_free_incl; eauto|]. intros ->. discriminate.
  - intros s k NB Q NW K1 K2 NE D IH _ _.
    assert (P := pieces_split k s NB (sp_kept _ K1)). rewrite Forall_forall in P.
    destruct (N.eq_dec k 46) as [->|N46].
    + destruct (D eq_refl) as [OD NN].
      assert (items s = [s]) as ->.
      { apply items_plain; [intros ->; destruct K2|]. intros c I. split.
        - destruct (is_ws c) eqn:X; auto. apply is_ws_In in X. exfalso. apply (NW c X I).
        - destruct (cut c) eqn:X; auto. apply cut_true in X as [X1 X2]. exfalso. apply (OD c X1 X2 I). }
      cbn [flat_map]. rewrite app_nil_r.
      assert (chunk s = interleave 46 (split 46 s)) as ->.
      { unfold chunk. rewrite NN. destruct s as [|c [|d s]]; auto. destruct K2 as [->|[]]. congruence. }
      assert (E : flat_map raw (interleave 46 (split 46 s)) = flat_map (fun e => [e]) (interleave 46 (split 46 s))).
      { apply flat_map_ext_in. intros e I. destruct (P e I) as (EN & [->|(A & B & C)]).
        - apply raw_sep. auto.
        - apply raw_plain_eq; auto; [eapply quote_free_incl; eauto|intros w W X; eapply NW; eauto|].
          intros k X Y. destruct (N.eq_dec k 46); [subst; auto|]. eapply OD; eauto. }
      rewrite E. clear. induction (interleave 46 (split 46 s)); cbn; congruence.
    + rewrite (items_split_cut k s) by (apply cut_true; auto).
      rewrite flat_map_flat_map. apply flat_map_ext_in. intros e I. destruct (P e I) as (EN & [->|(A & B & C)]).
      * rewrite raw_sep by auto. unfold items. assert (is_ws k = false) as ->.
        { destruct (is_ws k) eqn:X; auto. apply is_ws_In in X. exfalso. apply (NW k X K2). }
        assert (cut k = true) as -> by (apply cut_true; auto). reflexivity.
      * apply IH; auto. eapply quote_free_incl; eauto.
  - intros s NB Q NW H _ NE.
    assert (IW : forall c, In c s -> is_ws c = false).
    { intros c I. destruct (is_ws c) eqn:X; auto. apply is_ws_In in X. exfalso. apply (NW c X I). }
    assert (OD : only_dots s -> items s = [s]).
    { intros OD. apply items_plain; auto. intros c I. split; auto.
      destruct (cut c) eqn:X; auto. apply cut_true in X as [X1 X2]. exfalso. apply (OD c X1 X2 I). }
    destruct H as [H|[(k & K & ->)|[H1 H2]]].
    + rewrite OD by (intros k K _; apply H; auto). cbn. rewrite no_kept_chunk; auto.
    + unfold items. rewrite (IW k) by (left; auto). destruct (cut k); auto.
    + rewrite OD by auto. cbn [flat_map]. unfold chunk. rewrite H1, app_nil_r. destruct s as [|? [|? ?]]; auto.
Qed.

(** ** tame pieces of concatenations *)
Lemma tame_nil : tame [].
Proof. intros a b E. destruct a; discriminate. Qed.

(** ** Literals *)
Definition raw_lits (l : list (N * str * str)) : list str :=
  flat_map (fun l => let '(q, c, a) := l in [q] :: nonempty c ++ [q] :: raw0 a) l.
Definition flat_lits (l : list (N * str * str)) : str :=
  flat_map (fun l => let '(q, c, a) := l in [q] ++ c ++ [q] ++ a) l.
Fixpoint group (q : N) (l : list (N * str * str)) : list (N * str * str) * list (str * str * list (N * str * str)) :=
  match l with
  | [] => ([], [])
  | (q', c, a) :: r =>
    let '(l1, gs) := group q r in
    if N.eqb q' q then ([], (c, a, l1) :: gs) else ((q', c, a) :: l1, gs)
  end.
Definition flat_group (q : N) (gs : list (str * str * list (N * str * str))) : str :=
  flat_map (fun g => let '(c, a, l) := g in [q] ++ c ++ [q] ++ a ++ flat_lits l) gs.
Lemma group_flat : forall q l, flat_lits l = flat_lits (fst (group q l)) ++ flat_group q (snd (group q l)).
Proof.
  induction l as [|[[q' c] a] r IH]; auto. cbn [group flat_lits flat_map]. unfold flat_lits in IH at 1. rewrite IH.
  destruct (group q r) as [l1 gs]. cbn [fst snd]. destruct (N.eqb_spec q' q).
  - subst. cbn [fst snd flat_lits flat_map flat_group app]. rewrite <- ?app_assoc. cbn [app]. rewrite <- ?app_assoc. auto.
  - cbn [fst snd flat_lits flat_map]. rewrite <- ?app_assoc. cbn [app]. rewrite <- ?app_assoc. auto.
Qed.
Lemma group_raw : forall q l, raw_lits l = raw_lits (fst (group q l)) ++
  flat_map (fun g => let '(c, a, l) := g in [q] :: nonempty c ++ [q] :: raw0 a ++ raw_lits l) (snd (group q l)).
Proof.
  induction l as [|[[q' c] a] r IH]; auto. cbn [group raw_lits flat_map]. unfold raw_lits in IH at 1. rewrite IH.
  destruct (group q r) as [l1 gs]. cbn [fst snd]. destruct (N.eqb_spec q' q).
  - subst. cbn [fst snd raw_lits flat_map app]. rewrite <- ?app_assoc. cbn [app]. rewrite <- ?app_assoc. auto.
  - cbn [fst snd raw_lits flat_map]. rewrite <- ?app_assoc. cbn [app]. rewrite <- ?app_assoc. auto.
Qed.
Lemma group_incl : forall q l, incl (fst (group q l)) l
  /\ Forall (fun x => let '(q', _, _) := x in q' <> q) (fst (group q l))
  /\ Forall (fun g => let '(c, a, l1) := g in In (q, c, a) l /\ incl l1 l
       /\ Forall (fun x => let '(q', _, _) := x in q' <> q) l1) (snd (group q l)).
Proof.
  induction l as [|[[q' c] a] r IH].
  - cbn. split; [intros ? []|auto].
  - cbn [group]. destruct (group q r) as [l1 gs]. cbn [fst snd] in IH. destruct IH as (A & B & C).
    assert (C' : Forall (fun g => let '(c0, a0, l2) := g in In (q, c0, a0) ((q', c, a) :: r) /\ incl l2 ((q', c, a) :: r)
       /\ Forall (fun x => let '(q', _, _) := x in q' <> q) l2) gs).
    { eapply Forall_impl; [|exact C]. intros [[c0 a0] l2] (X & Y & Z). split; [right; auto|]. split; auto. apply incl_tl; auto. }
    destruct (N.eqb_spec q' q); cbn [fst snd].
    + subst. split; [intros ? []|]. split; auto. constructor; auto. split; [left; auto|]. split; auto. apply incl_tl; auto.
    + split; [|split; auto]. intros x [->|X]; [left; auto|right; auto].
Qed.
Lemma In_flat_lits : forall l x, In x (flat_lits l) ->
  exists q' c a, In (q', c, a) l /\ (x = q' \/ In x c \/ In x a).
Proof.
  intros l x I. apply in_flat_map in I as ([[q' c] a] & I & J). exists q', c, a. split; auto.
  cbn [app] in J. destruct J as [->|J]; auto. apply in_app_or in J as [J|J]; auto. cbn in J. destruct J as [->|J]; auto.
Qed.

Lemma string_raw_out : forall q e l, e <> [q] -> string_raw q false (nonempty e ++ l) = raw0 e ++ string_raw q false l.
Proof.
  intros q e l NE. destruct e as [|c e]; auto. cbn [nonempty app string_raw].
  destruct (str_eqb_spec (c :: e) [q]); [contradiction|]. auto.
Qed.
Lemma string_raw_in : forall q e l, e <> [q] -> string_raw q true (nonempty e ++ l) = nonempty e ++ string_raw q true l.
Proof.
  intros q e l NE. destruct e as [|c e]; auto. cbn [nonempty app string_raw].
  destruct (str_eqb_spec (c :: e) [q]); [contradiction|]. auto.
Qed.
Lemma interleave_cons : forall q e l, l <> [] -> interleave q (e :: l) = nonempty e ++ [q] :: interleave q l.
Proof. intros. destruct l; [congruence|auto]. Qed.

Lemma string_raw_groups : forall q gs x,
  (forall c a l, In (c, a, l) gs -> ~ In q c /\ ~ In q (a ++ flat_lits l)) -> ~ In q x ->
  string_raw q false (interleave q (split q (x ++ flat_group q gs)))
  = raw0 x ++ flat_map (fun g => let '(c, a, l) := g in [q] :: nonempty c ++ [q] :: raw0 (a ++ flat_lits l)) gs.
Proof.
  induction gs as [|[[c a] l] gs IH]; intros x H NX.
  - cbn [flat_group flat_map]. rewrite app_nil_r, split_none by auto. cbn [interleave].
    rewrite <- (app_nil_r (nonempty x)), string_raw_out by (intros ->; apply NX; left; auto). auto.
  - destruct (H c a l (or_introl eq_refl)) as [HC HA].
    cbn [flat_group flat_map].
    assert (E : x ++ ([q] ++ c ++ [q] ++ a ++ flat_lits l) ++ flat_group q gs
       = x ++ q :: c ++ q :: (a ++ flat_lits l) ++ flat_group q gs).
    { cbn [app]. rewrite <- ?app_assoc. cbn [app]. rewrite <- ?app_assoc. auto. }
    unfold flat_group in E at 1. rewrite E. rewrite split_mid, split_mid by auto.
    rewrite interleave_cons by discriminate. rewrite interleave_cons by apply split_nonnil.
    rewrite string_raw_out by (intros ->; apply NX; left; auto). f_equal.
    cbn [string_raw]. rewrite str_eqb_refl. cbn [negb app]. f_equal.
    rewrite string_raw_in by (intros ->; apply HC; left; auto).
    rewrite <- (app_assoc (nonempty c)). f_equal. cbn [app string_raw]. rewrite str_eqb_refl. cbn [negb]. f_equal.
    apply IH; auto. intros c0 a0 l0 I. apply H. right. auto.
Qed.

Definition lits_ok (l : list (N * str * str)) : Prop :=
  Forall (fun x => let '(q, c, a) := x in
       In q [39; 34; 96]%N /\ quote_free a
       /\ Forall (fun l' => let '(q', _, _) := l' in ~ In q' c) l) l.
Lemma lits_ok_incl : forall l l', incl l' l -> lits_ok l -> lits_ok l'.
Proof.
  intros l l' I H. unfold lits_ok in *. rewrite Forall_forall in H |- *. intros [[q c] a] J.
  destruct (H _ (I _ J)) as (A & B & C). split; auto. split; auto. rewrite Forall_forall in C |- *. intros x X. apply (C x (I _ X)).
Qed.
Lemma find_is_quote_app : forall a q b, quote_free a -> In q [39; 34; 96]%N -> find is_quote (a ++ q :: b) = Some q.
Proof.
  intros a q b QF I. rewrite find_app, no_quote_find by auto. cbn [find].
  assert (is_quote q = true) as -> by (apply is_quote_In; auto). auto.
Qed.
Lemma flat_eq : forall m, flat m = fst m ++ flat_lits (snd m).
Proof. destruct m; auto. Qed.

Lemma raw0_ne : forall s, s <> [] -> raw0 s = raw s.
Proof. destruct s; [congruence|auto]. Qed.
Theorem raw_literals : forall a l, tame (a ++ flat_lits l) -> quote_free a -> lits_ok l ->
  raw0 (a ++ flat_lits l) = raw0 a ++ raw_lits l.
Proof.
  assert (MAIN : forall n a l, mu (a ++ flat_lits l) < n -> tame (a ++ flat_lits l) -> quote_free a -> lits_ok l ->
    raw0 (a ++ flat_lits l) = raw0 a ++ raw_lits l).
  2:{ intros. eapply MAIN; eauto. }
  induction n as [|n IH]; intros a l M T QF OK; [lia|].
  destruct l as [|[[q c] b] r].
  { cbn. rewrite !app_nil_r. auto. }
  set (l := (q, c, b) :: r) in *.
  assert (Q : In q [39; 34; 96]%N) by (inversion OK; tauto).
  assert (F : find is_quote (a ++ flat_lits l) = Some q).
  { unfold l. cbn [flat_lits flat_map app]. apply find_is_quote_app; auto. }
  rewrite raw0_ne by (destruct a; discriminate).
  rewrite (raw_quote _ q T F). rewrite (group_flat q l), (group_raw q l), !app_assoc.
  destruct (group_incl q l) as (G1 & G2 & G3).
  assert (OKf := OK). unfold lits_ok in OKf. rewrite Forall_forall in OKf.
  assert (QL : In (q, c, b) l) by (left; auto).
  assert (NQ : forall l', incl l' l -> Forall (fun x => let '(q', _, _) := x in q' <> q) l' -> ~ In q (flat_lits l')).
  { intros l' I N X. apply In_flat_lits in X as (q' & c' & a' & J & K).
    rewrite Forall_forall in N. specialize (N _ J). cbn in N. destruct (OKf _ (I _ J)) as (A & B & C).
    destruct K as [K|[K|K]]; [congruence| |eapply B; eauto].
    rewrite Forall_forall in C. apply (C _ QL K). }
  assert (NA : forall x, quote_free x -> ~ In q x) by (intros x X Y; eapply X; eauto).
  assert (NX : ~ In q (a ++ flat_lits (fst (group q l)))).
  { intros X. apply in_app_or in X as [X|X]; [eapply NA; eauto|eapply NQ; eauto]. }
  assert (NG : forall c0 a0 l0, In (c0, a0, l0) (snd (group q l)) -> ~ In q c0 /\ ~ In q (a0 ++ flat_lits l0)).
  { intros c0 a0 l0 I. rewrite Forall_forall in G3. destruct (G3 _ I) as (A & B & C).
    destruct (OKf _ A) as (D & E & G). split.
    - rewrite Forall_forall in G. apply (G _ QL).
    - intros X. apply in_app_or in X as [X|X]; [eapply NA; eauto|eapply NQ; eauto]. }
  rewrite string_raw_groups by auto.
  (* the pieces are tame, and have one special character less *)
  assert (INQ : In q (a ++ flat_lits l)) by (apply find_some in F; tauto).
  assert (SP : In q specials) by (apply sp_quote; auto).
  assert (HT : forall p x y, a ++ flat_lits l = x ++ p ++ y -> (y = [] \/ exists y', y = q :: y') -> tame p)
    by (intros p x y E Y; eapply tame_part; eauto).
  assert (HM : forall p x y, a ++ flat_lits l = x ++ p ++ y -> ~ In q p -> mu p < n).
  { intros p x y E NP. assert (mu p < mu (a ++ flat_lits l)).
    { apply mu_lt with (k := q); auto. rewrite E. intros z Z. apply in_or_app. right. apply in_or_app. auto. }
    lia. }
  assert (FE : a ++ flat_lits l = (a ++ flat_lits (fst (group q l))) ++ flat_group q (snd (group q l))).
  { rewrite (group_flat q l) at 1. rewrite app_assoc. auto. }
  assert (FG : forall gs, flat_group q gs = [] \/ exists y', flat_group q gs = q :: y')
    by (destruct gs as [|[[? ?] ?] ?]; cbn; eauto).
  f_equal.
  - apply IH; auto.
    + eapply (HM _ []); eauto.
    + eapply (HT _ [] (flat_group q (snd (group q l)))); [exact FE|apply FG].
    + eapply lits_ok_incl; eauto.
  - apply flat_map_ext_in. intros [[c0 a0] l0] I. f_equal. f_equal. f_equal.
    assert (exists x y, a ++ flat_lits l = x ++ (a0 ++ flat_lits l0) ++ y /\ (y = [] \/ exists y', y = q :: y')) as (x & y & E & Y).
    { rewrite FE. apply in_split in I as (g1 & g2 & ->).
      exists ((a ++ flat_lits (fst (group q l))) ++ flat_group q g1 ++ [q] ++ c0 ++ [q]), (flat_group q g2).
      split; [|apply FG]. unfold flat_group. rewrite flat_map_app. cbn [flat_map].
      rewrite <- ?app_assoc. cbn [app]. rewrite <- ?app_assoc. cbn [app]. rewrite <- ?app_assoc. auto. }
    rewrite Forall_forall in G3. destruct (G3 _ I) as (A & B & C). apply IH.
    + eapply HM; eauto. apply (NG c0 a0 l0 I).
    + eapply HT; eauto.
    + apply (OKf _ A).
    + eapply lits_ok_incl; eauto.
Qed.

(** ** Joining operators *)
Definition merged (l : list str) : list str := fst (merge_stream MERGE_TOKENS l None).
Definition starts (e : str) : bool := existsb (startswith e) MERGE_TOKENS.
Lemma starts_false : forall e, starts e = false -> filter (fun g => startswith e g) MERGE_TOKENS = [].
Proof.
  intros e. unfold starts. induction MERGE_TOKENS as [|g l IH]; cbn; auto. destruct (startswith e g); [discriminate|auto].
Qed.
Lemma merged_eq : forall l, merge_stream MERGE_TOKENS l None = (merged l, None).
Proof.
  intros. unfold merged. destruct (merge_spec l None) as [A _].
  destruct (merge_stream MERGE_TOKENS l None). cbn in *. subst. auto.
Qed.
Lemma merged_cons : forall e r, merged (e :: r) =
  if starts e then
    match r with
    | [] => [e]
    | [] :: r' => e :: merged r'
    | n :: r' => if mem (e ++ n) MERGE_TOKENS then (e ++ n) :: merged r' else e :: n :: merged r'
    end
  else e :: merged r.
Proof.
  intros e r. unfold merged at 1. cbn [merge_stream]. destruct (starts e) eqn:ST.
  - destruct (filter (fun g => startswith e g) MERGE_TOKENS) as [|m ms] eqn:FM.
    { exfalso. unfold starts in ST. apply existsb_exists in ST as (x & I & X).
      assert (In x (filter (fun g => startswith e g) MERGE_TOKENS)) by (apply filter_In; auto). rewrite FM in H. destruct H. }
    destruct r as [|n r']; auto. destruct n as [|c n]; auto.
    destruct (filter (fun g => str_eqb (e ++ c :: n) g) (m :: ms)) as [|g [|g' gs]] eqn:FG.
    + assert (mem (e ++ c :: n) MERGE_TOKENS = false) as ->; auto. apply mem_false. intros I.
      assert (In (e ++ c :: n) (filter (fun g => str_eqb (e ++ c :: n) g) (m :: ms))).
      { rewrite <- FM. apply filter_In. split; [apply filter_In; split; auto; apply startswith_app|apply str_eqb_refl]. }
      rewrite FG in H. destruct H.
    + assert (G : In g (filter (fun g => str_eqb (e ++ c :: n) g) (m :: ms))) by (rewrite FG; left; auto).
      apply filter_In in G as [G1 G2]. apply str_eqb_eq in G2. rewrite <- FM in G1. apply filter_In in G1 as [G1 _].
      assert (mem (e ++ c :: n) MERGE_TOKENS = true) as -> by (apply mem_In; rewrite G2; auto).
      cbn. rewrite G2. auto.
    + exfalso. assert (X := filter_filter_le (fun g => str_eqb (e ++ c :: n) g) (fun g => startswith e g) MERGE_TOKENS).
      rewrite FM, FG in X. assert (Y := goals_nodup (e ++ c :: n)). cbn [length] in X. lia.
  - rewrite starts_false by auto. auto.
Qed.
(** a token that takes part in no operator separates the joining *)
Definition inert (t : str) : Prop :=
  t <> [] /\ starts t = false /\ (forall e, starts e = true -> mem (e ++ t) MERGE_TOKENS = false).
Lemma merged_app : forall l t r, inert t -> merged (l ++ t :: r) = merged l ++ t :: merged r.
Proof.
  intros l t r (NE & S1 & S2). remember (length l) as n eqn:LN. assert (LE : length l <= n) by lia. clear LN. revert l LE.
  induction n as [|n IH]; intros l LE.
  { destruct l; [|cbn in LE; lia]. cbn [app]. rewrite merged_cons, S1. auto. }
  destruct l as [|e l]; [cbn [app]; rewrite merged_cons, S1; auto|]. cbn in LE.
  cbn [app]. rewrite !merged_cons. destruct (starts e) eqn:SE.
  - destruct l as [|m l].
    + cbn [app]. destruct t as [|c t]; [congruence|]. rewrite S2 by auto. auto.
    + cbn in LE. cbn [app]. destruct m as [|c m]; [rewrite IH by lia; auto|].
      rewrite IH by lia. destruct (mem (e ++ c :: m) MERGE_TOKENS); auto.
  - rewrite IH by lia. auto.
Qed.
Lemma starts_firstn : forall e, starts e = true -> exists g n, In g MERGE_TOKENS /\ e = firstn n g.
Proof.
  intros e H. apply existsb_exists in H as (g & I & S). apply startswith_true in S as [r ->].
  exists (e ++ r), (length e). split; auto. rewrite firstn_app, firstn_all, Nat.sub_diag. cbn. rewrite app_nil_r. auto.
Qed.
Lemma goal_last : forall e t, mem (e ++ t) MERGE_TOKENS = true -> t <> [] -> e <> [] -> In t [">"; "="; "<"; "|"].
Proof.
  intros e t H N1 N2. apply mem_In in H. destruct e as [|a e]; [congruence|]. destruct t as [|b t]; [congruence|].
  cbn in H. repeat (destruct H as [H|H]; [cbn; destruct e as [|a' e]; [injection H as <- <- <-; auto|];
    destruct e; destruct t; discriminate|]). contradiction.
Qed.
Lemma inert_sufficient : forall t, t <> [] -> starts t = false -> ~ In t [">"; "="; "<"; "|"] -> mem t MERGE_TOKENS = false -> inert t.
Proof.
  intros t NE S NI NM. split; auto. split; auto. intros e E. destruct (mem (e ++ t) MERGE_TOKENS) eqn:M; auto.
  destruct e as [|c e]; [cbn [app] in M; congruence|]. exfalso. apply NI. eapply goal_last; eauto. discriminate.
Qed.
Lemma inert_quote : forall q, In q [39; 34; 96]%N -> inert [q].
Proof.
  intros q I. apply inert_sufficient; [discriminate| | |];
  cbn in I; destruct I as [<-|[<-|[<-|[]]]]; try reflexivity; cbn; intuition discriminate.
Qed.
