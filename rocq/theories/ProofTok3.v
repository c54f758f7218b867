(** The tokeniser properties. *)
From Verif Require Import PyStr Lib Tokeniser Validate Api SpecTok ProofTok ProofTok2.
Local Open Scope str_scope.
Local Open Scope list_scope.

Lemma to_tokens_eq : forall s, tame s -> to_tokens s = (merged (raw s), None).
Proof. intros s T. unfold to_tokens. rewrite raw_tokens_eq by auto. apply merged_eq. Qed.
Lemma merged_concat : forall l, concat (merged l) = concat l.
Proof. intros. unfold merged. apply merge_spec. auto. Qed.
Lemma merged_In : forall l t, In t (merged l) -> In t l \/ In t MERGE_TOKENS.
Proof. intros l t. apply (merge_spec l None). Qed.

(** ** C01 *)
Lemma tokens_lossless : forall s, tame s -> exists ts, to_tokens s = (ts, None) /\ drops_blanks s (concat ts).
Proof.
  intros s T. exists (merged (raw s)). split; [apply to_tokens_eq; auto|]. rewrite merged_concat. apply raw_db. auto.
Qed.

(** ** C05 *)
Lemma is_number_dotted : forall t, is_number_text t = true -> dotted_number t.
Proof.
  intros t H. unfold is_number_text in H. apply andb_true_iff in H as [H1 H2]. apply has_In in H1.
  unfold isdigit, no_dots in H2.
  assert (I : forall c, In c (replace_c 46 [] t) <-> In c t /\ c <> 46%N).
  { intros c. unfold replace_c. rewrite in_flat_map. split.
    - intros (x & X & Y). destruct (N.eqb_spec x 46); [destruct Y|]. destruct Y as [->|[]]. auto.
    - intros [X Y]. exists c. split; auto. destruct (N.eqb_spec c 46); [congruence|]. left. auto. }
  destruct (replace_c 46 [] t) as [|d l] eqn:E; [discriminate|].
  split; auto. split.
  - exists d. apply I. left. auto.
  - intros c C. destruct (N.eq_dec c 46); auto. right. rewrite forallb_forall in H2.
    assert (X := H2 c (proj2 (I c) (conj C n))). unfold is_digit_c in X. apply andb_true_iff in X as [X1 X2].
    apply N.leb_le in X1, X2. auto.
Qed.
Lemma tokens_shape : forall s ts e, tame s -> quote_free s -> to_tokens s = (ts, e) ->
  Forall (fun t => (forall c, In c t -> ~ blank c)
    /\ (2 <= length t -> (exists c, In c t /\ separator c) -> dotted_number t \/ two_char_operator t)) ts.
Proof.
  intros s ts e T Q E. rewrite to_tokens_eq in E by auto. injection E as <- <-.
  apply Forall_forall. intros t I. assert (S := raw_simple s T Q). rewrite Forall_forall in S.
  apply merged_In in I as [I|I].
  - destruct (S t I) as [W K]. split.
    + intros c C B. apply blank_ws in B. apply (W c B C).
    + intros L (c & C & SC). apply kept_separator in SC. destruct K as [K|[(k & K & ->)|K]].
      * exfalso. apply (K c SC C).
      * cbn in L. lia.
      * left. apply is_number_dotted. auto.
  - split; [|auto]. intros c C B. cbn in I.
    repeat (destruct I as [<-|I]; [cbn in C; destruct B as [-> | [-> | ->]]; intuition discriminate|]). contradiction.
Qed.
Lemma db_filter : forall s t, drops_blanks s t -> (forall c, In c t -> ~ blank c) ->
  t = filter (fun c => negb (is_ws c)) s.
Proof.
  intros s t H. induction H; intros B; auto.
  - cbn [filter]. assert (is_ws c = false) as ->.
    { destruct (is_ws c) eqn:X; auto. apply is_ws_In in X. apply blank_ws in X. exfalso. apply (B c); [left|]; auto. }
    cbn [negb]. f_equal. apply IHdrops_blanks. intros x X. apply B. right. auto.
  - cbn [filter]. assert (is_ws c = true) as -> by (apply is_ws_In; apply blank_ws; auto). cbn [negb]. auto.
Qed.
Lemma tokens_exact : forall s, tame s -> quote_free s ->
  concat (fst (to_tokens s)) = filter (fun c => negb (N.eqb c 32 || N.eqb c 10 || N.eqb c 9)) s.
Proof.
  intros s T Q. destruct (tokens_lossless s T) as (ts & E & D). rewrite E. cbn [fst].
  rewrite (db_filter s (concat ts) D).
  - apply filter_ext. intros c. unfold is_ws, WHITESPACE_SPLIT_TOKENS. cbn [existsb]. rewrite orb_false_r, orb_assoc. auto.
  - intros c I. apply in_concat in I as (t & I & J). assert (S := tokens_shape s ts None T Q E).
    rewrite Forall_forall in S. apply (S t I). auto.
Qed.

(** ** C03 *)
Lemma depth_bound : forall s, tame s -> forall n, 21 <= n ->
  exists ts, split_tokens n s = (ts, None) /\ raw_tokens s = (ts, None).
Proof.
  intros s T n L. exists (raw s). split; [apply raw_spec; auto; pose proof (mu_20 s); lia|apply raw_tokens_eq; auto].
Qed.
Lemma glue_nonnil : forall k l, l <> [] -> glue k l <> [].
Proof.
  intros k l. destruct l as [|v l]; [congruence|]. intros _. cbn [glue].
  destruct (endswith [backslash] v); [destruct l|]; discriminate.
Qed.
Lemma endswith_app : forall a b, endswith b (a ++ b) = true.
Proof. intros. apply endswith_true. eauto. Qed.
Lemma split_cons : forall k s, exists p ps, split k s = p :: ps /\ ~ In k p /\ incl p s.
Proof.
  intros. assert (P := split_parts k s). destruct (split k s) as [|p ps] eqn:E; [exfalso; eapply split_nonnil; eauto|].
  inversion P as [|? ? (A & B & _) _]; subst. exists p, ps. auto.
Qed.
(** the first piece of a text with an escaped separator keeps the separator *)
Lemma escaped_split : forall k a b, ~ In k a -> k <> 92%N ->
  exists p r, ~ In k p /\ incl p b /\ split_with_sep (a ++ [92; k]%N ++ b) k = (a ++ [92; k]%N ++ p) :: r.
Proof.
  intros k a b NA NK. destruct (split_cons k b) as (p & ps & E & NP & I). unfold split_with_sep, split_with_escaping.
  assert (X : a ++ [92; k]%N ++ b = (a ++ [92%N]) ++ k :: b) by (rewrite <- app_assoc; auto).
  rewrite X, split_mid, E.
  - cbn [glue]. change backslash with 92%N. rewrite endswith_app. exists p.
    assert (Y : (a ++ [92%N]) ++ [k] ++ p = a ++ [92; k]%N ++ p) by (rewrite <- app_assoc; auto). rewrite Y.
    assert (Z : exists c w, a ++ [92; k]%N ++ p = c :: w) by (destruct a; cbn; eauto). destruct Z as (c & w & Z).
    destruct (glue k ps) as [|g gs].
    + cbn [interleave]. rewrite Z. cbn [nonempty]. eauto.
    + rewrite interleave_cons by discriminate. rewrite Z. cbn [nonempty app]. eauto.
  - intros J. apply in_app_or in J as [J|[J|[]]]; auto.
Qed.
Lemma escaped_quote_diverges : forall q a, In q [39; 34; 96]%N -> quote_free a ->
  forall n b, snd (split_tokens n (a ++ [92; q]%N ++ b)) = Some RecursionError.
Proof.
  intros q a Q QF. assert (NQ : q <> 92%N) by (intros ->; cbn in Q; intuition discriminate).
  assert (QB : quote_free (a ++ [92%N])).
  { intros c I. apply in_app_or in I as [I|[<-|[]]]; [auto|]. cbn. intuition discriminate. }
  induction n as [|n IH]; intros b; auto. cbn [split_tokens].
  assert (F : find is_quote (a ++ [92; q]%N ++ b) = Some q).
  { change ([92; q]%N ++ b) with ([92%N] ++ q :: b). rewrite app_assoc. apply find_is_quote_app; auto. }
  rewrite F. destruct (escaped_split q a b) as (p & r & NP & I & E); auto.
  { intros J. apply (QF q J Q). }
  rewrite E. cbn [string_parts]. assert (X := IH p).
  assert (NE : str_eqb (a ++ [92; q]%N ++ p) [q] = false).
  { apply str_eqb_neq. destruct a as [|c a]; [cbn; congruence|]. cbn. destruct a; discriminate. }
  rewrite NE. unfold sapp. rewrite X. auto.
Qed.
Lemma escaped_separator_diverges : forall k a, separator k -> quote_free a ->
  (forall c, In c a -> ~ blank c /\ ~ separator c) ->
  forall n b, quote_free b -> (forall c, In c b -> ~ blank c /\ (separator c -> c = k)) ->
  snd (split_tokens n (a ++ [92; k]%N ++ b)) = Some RecursionError.
Proof.
  intros k a K QF HA. assert (KK := K). apply kept_separator in KK.
  assert (NQ : k <> 92%N) by (intros ->; cbn in KK; intuition discriminate).
  assert (QK : ~ In k [39; 34; 96]%N) by (intros X; cbn in X, KK; intuition congruence).
  assert (BK : ~ blank k) by (intros X; unfold blank in X; cbn in KK; intuition congruence).
  induction n as [|n IH]; intros b QB HB; auto. cbn [split_tokens].
  set (s := a ++ [92; k]%N ++ b) in *.
  assert (IN : forall c, In c s -> In c a \/ c = 92%N \/ c = k \/ In c b).
  { intros c I. apply in_app_or in I as [I|I]; auto. cbn in I. intuition. }
  assert (QS : quote_free s).
  { intros c I. apply IN in I as [I|[->|[->|I]]]; auto. cbn. intuition discriminate. }
  rewrite no_quote_find by auto.
  assert (find (fun w => has w s) WHITESPACE_SPLIT_TOKENS = None) as ->.
  { destruct (find _ WHITESPACE_SPLIT_TOKENS) as [w|] eqn:F; auto. apply find_some in F as [W1 W2]. apply has_In in W2.
    apply blank_ws in W1. exfalso. apply IN in W2 as [I|[->|[->|I]]]; auto.
    - apply (proj1 (HA w I)); auto.
    - unfold blank in W1. intuition discriminate.
    - apply (proj1 (HB w I)); auto. }
  assert (NE : forall c, s <> [c]).
  { intros c. unfold s. destruct a as [|x a]; [discriminate|]. cbn. destruct a; discriminate. }
  assert (INK : In k s) by (unfold s; apply in_or_app; right; right; left; auto).
  assert (find (fun k0 => has k0 s && negb (str_eqb s [k0])) KEPT_SPLIT_TOKENS = Some k) as ->.
  { destruct (find _ KEPT_SPLIT_TOKENS) as [w|] eqn:F.
    - apply find_some in F as [W1 W2]. apply andb_true_iff in W2 as [W2 _]. apply has_In in W2.
      apply kept_separator in W1. f_equal. apply IN in W2 as [I|[->|[->|I]]]; auto.
      + exfalso. apply (proj2 (HA w I)); auto.
      + apply kept_separator in W1. cbn in W1. intuition discriminate.
      + apply (proj2 (HB w I)); auto.
    - assert (X := find_none _ _ F k KK). cbn in X. apply has_In in INK. rewrite INK in X. cbn in X.
      destruct (str_eqb_spec s [k]); [exfalso; eapply NE; eauto|discriminate]. }
  assert (is_number_text s = false) as ->.
  { destruct (is_number_text s) eqn:X; auto. apply is_number_dotted in X as (_ & _ & X).
    destruct (X 92%N) as [Y|Y]; [|discriminate|lia]. unfold s. apply in_or_app. right. left. auto. }
  rewrite andb_false_r. destruct (escaped_split k a b) as (p & r & NP & I & E); auto.
  { intros J. apply (proj2 (HA k J)); auto. }
  unfold s at 1. rewrite E. cbn [flat_stream]. unfold sapp.
  assert (X : snd (split_tokens n (a ++ [92; k]%N ++ p)) = Some RecursionError).
  { apply IH; [exact (quote_free_incl p b QB I)|]. intros c C. apply HB. auto. }
  rewrite X. auto.
Qed.

(** ** C04 *)
Lemma tokens_of_raw : forall s, tame s -> tokens_of s = merged (raw0 s).
Proof. intros s T. unfold tokens_of, raw0. destruct s; auto. rewrite to_tokens_eq by auto. auto. Qed.
Lemma merged_nonempty : forall c, merged (nonempty c) = nonempty c.
Proof. destruct c as [|x c]; auto. cbn [nonempty]. rewrite merged_cons. destruct (starts (x :: c)); auto. Qed.
Lemma merged_lits : forall l x, lits_ok l -> merged (x ++ raw_lits l)
  = merged x ++ flat_map (fun l => let '(q, c, a) := l in [q] :: nonempty c ++ [q] :: merged (raw0 a)) l.
Proof.
  intros l. assert (G : forall x, Forall (fun t => let '(q, _, _) := t in In q [39; 34; 96]%N) l -> merged (x ++ raw_lits l)
    = merged x ++ flat_map (fun l => let '(q, c, a) := l in [q] :: nonempty c ++ [q] :: merged (raw0 a)) l).
  { induction l as [|[[q c] a] l IH]; intros x F.
    - cbn. rewrite !app_nil_r. auto.
    - inversion F; subst. cbn [raw_lits flat_map]. cbn [app].
      rewrite merged_app by (apply inert_quote; auto). f_equal. f_equal.
      rewrite <- app_assoc. cbn [app]. rewrite merged_app by (apply inert_quote; auto).
      rewrite merged_nonempty. rewrite <- app_assoc. f_equal. cbn [app]. f_equal.
      apply (IH (raw0 a)); auto. }
  intros x OK. apply G. eapply Forall_impl; [|exact OK]. intros [[q c] a] (A & _). auto.
Qed.
Lemma literals_verbatim : forall m, well_quoted m -> tame (flat m) -> flat m <> [] ->
  to_tokens (flat m) = (tokens_of (fst m) ++ flat_map literal_tokens (snd m), None).
Proof.
  intros [a l] [Q OK] T NE. rewrite flat_eq in *. cbn [fst snd] in *.
  assert (OK' : lits_ok l) by exact OK. rewrite to_tokens_eq by auto. f_equal.
  rewrite <- raw0_ne by auto. rewrite raw_literals by auto. rewrite merged_lits by auto.
  assert (FL : forall l, lits_ok l -> flat_lits l = [] \/ exists q y', In q specials /\ flat_lits l = q :: y').
  { intros [|[[q c] b] l1] O; auto. right. inversion O; subst. exists q. eexists. split; [apply sp_quote; tauto|reflexivity]. }
  assert (TP : forall p x y, a ++ flat_lits l = x ++ p ++ y -> (y = [] \/ exists q y', In q specials /\ y = q :: y') -> tame p).
  { intros p x y E [->|(q & y' & S & ->)].
    - eapply (tame_part _ 32%N x p []); eauto. apply sp_ws. left. auto.
    - eapply (tame_part _ q x p (q :: y')); eauto. }
  rewrite tokens_of_raw by (eapply (TP a [] (flat_lits l)); auto).
  f_equal. apply flat_map_ext_in. intros [[q c] b] I. unfold literal_tokens. rewrite tokens_of_raw.
  - cbn [app]. f_equal.
  - apply in_split in I as (l1 & l2 & ->).
    apply (TP b (a ++ flat_lits l1 ++ [q] ++ c ++ [q]) (flat_lits l2)).
    + unfold flat_lits. rewrite flat_map_app. cbn [flat_map]. rewrite <- ?app_assoc. cbn [app]. rewrite <- ?app_assoc. auto.
    + apply FL. eapply lits_ok_incl; [|exact OK']. intros x X. apply in_or_app. right. right. auto.
Qed.
Lemma escaped_quote_kept : forall q pre c1 c2 post, In q [39; 34; 96]%N ->
  quote_free pre -> tame pre -> quote_free post -> tame post -> ~ In q c1 -> ~ In q c2 ->
  to_tokens (pre ++ [q] ++ (c1 ++ [92; q]%N ++ c2) ++ [q] ++ post)
  = (tokens_of pre ++ [[q]; c1 ++ [92; q]%N ++ c2; [q]] ++ tokens_of post, None).
Proof.
  intros q pre c1 c2 post Q QA TA QB TB N1 N2.
  assert (NQ : q <> 92%N) by (intros ->; cbn in Q; intuition discriminate).
  assert (NP : forall x, quote_free x -> ~ In q x) by (intros x X Y; eapply X; eauto).
  assert (ET : forall x, tame x -> endswith [backslash] x = false).
  { intros x X. eapply (tame_part x 32%N [] x []); auto; [apply sp_ws; left; auto|rewrite app_nil_r; auto]. }
  unfold to_tokens, raw_tokens.
  set (s := pre ++ [q] ++ (c1 ++ [92; q]%N ++ c2) ++ [q] ++ post).
  assert (SE : s = pre ++ q :: (c1 ++ [92%N]) ++ q :: c2 ++ q :: post).
  { unfold s. cbn [app]. rewrite <- ?app_assoc. cbn [app]. auto. }
  cbn [split_tokens].
  assert (find is_quote s = Some q) as -> by (apply find_is_quote_app; auto).
  assert (E : split_with_sep s q = nonempty pre ++ [q] :: (c1 ++ [92; q]%N ++ c2) :: [q] :: nonempty post).
  { unfold split_with_sep, split_with_escaping. rewrite SE, split_mid, split_mid, split_mid, split_none; auto.
    - cbn [glue]. rewrite (ET pre), (ET post) by auto. change backslash with 92%N. rewrite endswith_app.
      cbn [interleave]. rewrite <- app_assoc. cbn [app]. f_equal. f_equal.
      assert (exists x w, c1 ++ 92%N :: q :: c2 = x :: w) as (x & w & ->) by (destruct c1; cbn; eauto).
      auto.
    - intros I. apply in_app_or in I as [I|[I|[]]]; auto. }
  rewrite E.
  assert (REC : forall e, e <> [] -> tame e -> quote_free e -> incl e s -> split_tokens (length s) e = (raw e, None)).
  { intros e NE T QE I. apply (raw_piece s q); auto with tok. unfold s. apply in_or_app. right. left. auto. }
  assert (I1 : incl pre s) by (unfold s; intros x X; apply in_or_app; auto).
  assert (I2 : incl post s).
  { rewrite SE. intros x X. apply in_or_app. right. right. apply in_or_app. right. right. apply in_or_app. right. right. auto. }
  assert (P1 : forall r, string_parts (split_tokens (length s)) q false (nonempty pre ++ r)
     = sapp (raw0 pre, None) (string_parts (split_tokens (length s)) q false r)).
  { intros r. destruct pre as [|c pre'] eqn:EP.
    - cbn [nonempty app raw0]. unfold sapp. cbn. destruct (string_parts _ q false r); auto.
    - rewrite <- EP in *. assert (nonempty pre = [pre]) as -> by (rewrite EP; auto). cbn [app string_parts].
      assert (str_eqb pre [q] = false) as ->. { apply str_eqb_neq. intros X. apply (NP pre QA). rewrite X. left. auto. }
      rewrite REC by (auto; rewrite EP; discriminate). rewrite raw0_ne by (rewrite EP; discriminate). auto. }
  rewrite P1. cbn [string_parts]. rewrite str_eqb_refl. cbn [negb].
  assert (NC : str_eqb (c1 ++ [92; q]%N ++ c2) [q] = false).
  { apply str_eqb_neq. destruct c1 as [|x c1]; [cbn; congruence|]. cbn. destruct c1; discriminate. }
  rewrite NC. cbn [negb].
  assert (P2 : string_parts (split_tokens (length s)) q false (nonempty post) = (raw0 post, None)).
  { destruct post as [|c post'] eqn:EP; auto.
    rewrite <- EP in *. assert (nonempty post = [post]) as -> by (rewrite EP; auto). cbn [string_parts].
    assert (str_eqb post [q] = false) as ->. { apply str_eqb_neq. intros X. apply (NP post QB). rewrite X. left. auto. }
    rewrite REC by (auto; rewrite EP; discriminate). rewrite raw0_ne by (rewrite EP; discriminate).
    unfold sapp. cbn. rewrite app_nil_r. auto. }
  rewrite P2. unfold sapp. cbn [fst snd app]. rewrite merged_eq. f_equal.
  rewrite merged_app by (apply inert_quote; auto). rewrite <- !tokens_of_raw by auto.
  change ((c1 ++ 92%N :: q :: c2) :: [q] :: raw0 post) with ([c1 ++ 92%N :: q :: c2] ++ [q] :: raw0 post).
  rewrite merged_app by (apply inert_quote; auto). rewrite <- tokens_of_raw by auto.
  f_equal. f_equal. rewrite merged_cons. destruct (starts _); auto.
Qed.

(** ** C06 *)
Lemma merge_joins : forall l, exists l', merge_stream MERGE_TOKENS l None = (l', None) /\ joins l l' /\ concat l' = concat l.
Proof.
  intros l. exists (merged l). split; [apply merged_eq|]. split; [|apply merged_concat].
  remember (length l) as n eqn:LN. assert (LE : length l <= n) by lia. clear LN. revert l LE.
  induction n as [|n IH]; intros l LE.
  { destruct l; [constructor|cbn in LE; lia]. }
  destruct l as [|e r]; [constructor|]. cbn in LE. rewrite merged_cons. destruct (starts e).
  - destruct r as [|m r]; [repeat constructor|]. cbn in LE. destruct m as [|c m].
    + constructor. apply jo_empty. apply IH. lia.
    + destruct (mem (e ++ c :: m) MERGE_TOKENS) eqn:M.
      * apply jo_pair; [apply mem_In; auto|apply IH; lia].
      * constructor. constructor. apply IH. lia.
  - constructor. apply IH. lia.
Qed.
Lemma merge_error : forall l e, snd (merge_stream MERGE_TOKENS l (Some e)) = Some e.
Proof. intros. apply merge_spec. Qed.
Lemma no_operator_inert : forall t, no_operator t -> inert t.
Proof.
  intros t [NE H].
  assert (HD : forall g, In g MERGE_TOKENS -> exists x y, g = [x; y] /\ In x [60; 62; 61; 124; 33]%N).
  { intros g I. cbn in I. repeat (destruct I as [<-|I]; [eexists; eexists; split; [reflexivity|cbn; auto 10]|]). contradiction. }
  destruct t as [|c t]; [congruence|]. apply inert_sufficient; auto.
  - destruct (starts (c :: t)) eqn:S; auto. apply existsb_exists in S as (g & I & S).
    apply startswith_true in S as [r ->]. destruct (HD _ I) as (x & y & E & X). injection E as -> _.
    exfalso. apply (H x); [left|]; auto.
  - intros I. cbn in I. destruct I as [E|[E|[E|[E|[]]]]]; injection E as <- <-; eapply H; try (left; reflexivity); cbn; auto 10.
  - apply mem_false. intros I. destruct (HD _ I) as (x & y & E & X). injection E as -> _. apply (H x); [left|]; auto.
Qed.
Lemma merge_pair : forall l t a b r, no_operator t -> two_char_operator [a; b] ->
  fst (merge_stream MERGE_TOKENS (l ++ t :: [a] :: [b] :: r) None)
  = fst (merge_stream MERGE_TOKENS l None) ++ t :: [a; b] :: fst (merge_stream MERGE_TOKENS r None).
Proof.
  intros l t a b r NT OP. change (fst (merge_stream MERGE_TOKENS ?x None)) with (merged x).
  rewrite merged_app by (apply no_operator_inert; auto). f_equal. f_equal. rewrite merged_cons.
  assert (starts [a] = true) as ->.
  { apply existsb_exists. exists [a; b]. split; [exact OP|]. apply startswith_true. exists [b]. auto. }
  assert (mem ([a] ++ [b]) MERGE_TOKENS = true) as -> by (apply mem_In; exact OP). auto.
Qed.

(** ** C02 *)
Lemma tame_app : forall x y, tame x -> tame y -> tame (x ++ y).
Proof.
  intros x y TX TY a b E.
  assert (X : exists r, (x = a ++ r /\ r ++ y = 92%N :: b) \/ (exists d r', a = x ++ d :: r')%list \/ (a = x /\ y = 92%N :: b)).
  { revert a E. clear TX. induction x as [|c x IH]; intros a E.
    - destruct a as [|d a]; [exists []; right; right; auto|]. exists []. right. left. exists d, a. auto.
    - destruct a as [|d a].
      + exists (c :: x). left. auto.
      + cbn in E. injection E as <- E. destruct (IH a E) as (r & [[A B]|[(d & r' & A)|[A B]]]).
        * exists r. left. subst. auto.
        * exists r. right. left. exists d, r'. subst. auto.
        * exists r. right. right. subst. auto. }
  destruct X as (r & [[A B]|[(d & r' & A)|[A B]]]).
  - destruct r as [|c r].
    + cbn in B. apply (TY [] b). auto.
    + cbn in B. injection B as -> B. destruct (TX a r A) as (c & b' & -> & H). exists c, (b' ++ y). split; auto.
  - subst a. rewrite <- app_assoc in E. apply app_inv_head in E. apply (TY (d :: r') b E).
  - apply (TY [] b B).
Qed.
Lemma blanks_items : forall b r, (forall c, In c b -> blank c) -> items (b ++ r) = items r.
Proof.
  induction b as [|c b IH]; intros r H; auto. cbn [app]. rewrite items_cons.
  assert (is_ws c = true) as -> by (apply is_ws_In; apply blank_ws; apply H; left; auto).
  apply IH. intros x X. apply H. right. auto.
Qed.
Lemma layout_items : forall ws s, layout ws s -> items s = flat_map items ws.
Proof.
  intros ws s H. induction H as [b H|w ws b s NE HW HB HS _ IH].
  - rewrite <- (app_nil_r b), blanks_items by auto. auto.
  - rewrite blanks_items by auto. cbn [flat_map]. rewrite <- IH.
    destruct HS as [->|(c & s' & -> & BC)]; [cbn; rewrite !app_nil_r; auto|].
    assert (WC : is_ws c = true) by (apply is_ws_In; apply blank_ws; auto).
    rewrite items_app by (rewrite WC; auto). unfold sep_item. rewrite WC. cbn [app]. f_equal.
    rewrite items_cons, WC. auto.
Qed.
Lemma tame_blanks : forall b, (forall c, In c b -> blank c) -> tame b.
Proof.
  intros b H x y ->. exfalso. assert (B : blank 92%N) by (apply H; apply in_or_app; right; left; auto).
  unfold blank in B. intuition discriminate.
Qed.
Lemma layout_tame : forall ws s, layout ws s -> Forall tame ws -> tame s.
Proof.
  intros ws s H. induction H; intros F; [apply tame_blanks; auto|]. inversion F; subst.
  apply tame_app; [apply tame_blanks; auto|]. apply tame_app; auto.
Qed.
Lemma layout_quote_free : forall ws s, layout ws s -> Forall quote_free ws -> quote_free s.
Proof.
  assert (BQ : forall b, (forall c, In c b -> blank c) -> quote_free b).
  { intros b H c I J. apply H in I. unfold blank in I. cbn in J. intuition congruence. }
  assert (AP : forall x y, quote_free x -> quote_free y -> quote_free (x ++ y)).
  { intros x y X Y c I. apply in_app_or in I as [I|I]; auto. }
  intros ws s H. induction H; intros F; auto. inversion F; subst. apply AP; auto.
Qed.
Lemma layout_nonempty : forall ws s, layout ws s -> ws <> [] -> s <> [].
Proof. intros ws s H. destruct H; [congruence|]. intros _. destruct b; [|discriminate]. destruct w; [congruence|discriminate]. Qed.
Lemma layout_tokens : forall ws a b, ws <> [] -> Forall (fun w => quote_free w /\ tame w) ws ->
  layout ws a -> layout ws b -> to_tokens a = to_tokens b.
Proof.
  intros ws a b NE F LA LB.
  assert (F1 : Forall quote_free ws) by (eapply Forall_impl; [|exact F]; intros ? [? ?]; auto).
  assert (F2 : Forall tame ws) by (eapply Forall_impl; [|exact F]; intros ? [? ?]; auto).
  assert (TA := layout_tame _ _ LA F2). assert (TB := layout_tame _ _ LB F2).
  rewrite !to_tokens_eq by auto. do 2 f_equal.
  rewrite <- (raw0_ne a), <- (raw0_ne b) by (eapply layout_nonempty; eauto).
  rewrite !raw0_items by (auto; eapply layout_quote_free; eauto).
  rewrite (layout_items _ _ LA), (layout_items _ _ LB). auto.
Qed.
Lemma same_api : forall a b, parse_sql a = parse_sql b ->
  format_sql a = format_sql b
  /\ (forall ord, fst (q_is_valid ord (new_query a)) = fst (q_is_valid ord (new_query b))
       /\ q_errors (snd (q_is_valid ord (new_query a))) = q_errors (snd (q_is_valid ord (new_query b)))).
Proof.
  intros a b E. split; [unfold format_sql; rewrite E; auto|]. intros ord.
  unfold q_is_valid, q_validate, get_ast, new_query. cbn [q_ast q_sql q_validated q_errors]. rewrite E.
  destruct (parse_sql b) as [n|e]; cbn [rbind].
  - cbn [q_ast q_sql q_validated q_errors]. destruct (validate_top ord n) as [es|[]]; cbn; auto.
  - destruct e; cbn; auto.
Qed.
Lemma layout_free : forall ws a b, ws <> [] -> Forall (fun w => quote_free w /\ tame w) ws ->
  layout ws a -> layout ws b ->
  format_sql a = format_sql b
  /\ (forall ord, fst (q_is_valid ord (new_query a)) = fst (q_is_valid ord (new_query b))
       /\ q_errors (snd (q_is_valid ord (new_query a))) = q_errors (snd (q_is_valid ord (new_query b)))).
Proof.
  intros ws a b NE F LA LB. apply same_api. unfold parse_sql. rewrite (layout_tokens ws a b); auto.
Qed.
Lemma same_words_tokens : forall a b, same_words a b -> tame a -> quote_free a -> tame b -> quote_free b ->
  tokens_of a = tokens_of b.
Proof.
  intros a b (ws & LA & LB) TA QA TB QB. rewrite !tokens_of_raw, !raw0_items by auto.
  rewrite (layout_items _ _ LA), (layout_items _ _ LB). auto.
Qed.
Lemma layout_free_literals : forall m m', well_quoted m -> well_quoted m' -> tame (flat m) -> tame (flat m') ->
  snd m <> [] -> same_but_layout m m' ->
  format_sql (flat m) = format_sql (flat m')
  /\ (forall ord, fst (q_is_valid ord (new_query (flat m))) = fst (q_is_valid ord (new_query (flat m')))
       /\ q_errors (snd (q_is_valid ord (new_query (flat m)))) = q_errors (snd (q_is_valid ord (new_query (flat m'))))).
Proof.
  intros [a l] [a' l'] W W' T T' NE [SA SL]. cbn [fst snd] in *. apply same_api. unfold parse_sql.
  assert (NF : forall a l, l <> [] -> flat (a, l) <> []).
  { intros x y NY. rewrite flat_eq. cbn [fst snd]. destruct y as [|[[q c] b] y]; [congruence|]. destruct x; discriminate. }
  assert (NE' : l' <> []) by (intros ->; inversion SL; congruence).
  rewrite !literals_verbatim by auto. cbn [fst snd].
  assert (TP : forall a l, well_quoted (a, l) -> tame (flat (a, l)) ->
     (tame a /\ quote_free a) /\ Forall (fun t => let '(q, c, b) := t in tame b /\ quote_free b) l).
  { clear. intros a l [Q OK] T. rewrite flat_eq in T. cbn [fst snd] in *. split; [split; auto|].
    - destruct l as [|[[q c] b] l]; [cbn in T; rewrite app_nil_r in T; auto|]. inversion OK; subst.
      eapply (tame_part _ q [] a); [exact T|apply sp_quote; tauto|reflexivity|]. right. eexists. reflexivity.
    - apply Forall_forall. intros [[q c] b] I. assert (OK2 := OK). rewrite Forall_forall in OK2. split; [|apply (OK2 _ I)].
      apply in_split in I as (l1 & l2 & ->). unfold flat_lits in T. rewrite flat_map_app in T. cbn [flat_map] in T.
      destruct l2 as [|[[q2 c2] b2] l2].
      + cbn [flat_map] in T. rewrite app_nil_r in T.
        eapply (tame_part _ 32%N (a ++ flat_lits l1 ++ [q] ++ c ++ [q]) b []); [exact T|apply sp_ws; left; auto| |auto].
        rewrite app_nil_r. unfold flat_lits. rewrite <- ?app_assoc. cbn [app]. rewrite <- ?app_assoc. auto.
      + assert (Q2 : In q2 [39; 34; 96]%N) by (apply (OK2 (q2, c2, b2)); apply in_or_app; right; right; left; auto).
        eapply (tame_part _ q2 (a ++ flat_lits l1 ++ [q] ++ c ++ [q]) b); [exact T|apply sp_quote; auto| |right; eexists; reflexivity].
        unfold flat_lits. cbn [flat_map]. rewrite <- ?app_assoc. cbn [app]. rewrite <- ?app_assoc. cbn [app]. auto. }
  destruct (TP a l W T) as [[TA QA] FL]. destruct (TP a' l' W' T') as [[TA' QA'] FL'].
  rewrite (same_words_tokens a a') by auto.
  assert (flat_map literal_tokens l = flat_map literal_tokens l') as ->; auto.
  clear - SL FL FL'. revert FL FL'. induction SL as [|[[q c] b] [[q' c'] b'] l l' H _ IH]; intros FL FL'; auto.
  destruct H as (<- & <- & S).
  inversion FL as [|? ? F1 ?]; subst. inversion FL' as [|? ? F2 ?]; subst. destruct F1 as [A B]. destruct F2 as [A' B'].
  cbn [flat_map]. rewrite IH by auto.
  unfold literal_tokens. rewrite (same_words_tokens b b'); auto.
Qed.
