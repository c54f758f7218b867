(** Proofs for C55: what argparse makes of one argument. *)
From Verif Require Import PyStr Lib PyTokens FileHandler Args SpecArgs.
Local Open Scope str_scope.
Local Open Scope list_scope.

Lemma partition_spec : forall s p b e, partition_eq s = (p, b, e) ->
  ~ In 61%N p /\ (b = true /\ s = p ++ 61%N :: e \/ b = false /\ s = p /\ e = []).
Proof.
  induction s as [|c s IH]; intros p b e H; cbn [partition_eq] in H.
  - injection H as <- <- <-. split; [intros []|]. right. auto.
  - destruct (N.eqb_spec c 61).
    + injection H as <- <- <-. subst. split; [intros []|]. left. auto.
    + destruct (partition_eq s) as [[p' b'] e'] eqn:E. injection H as <- <- <-. destruct (IH _ _ _ eq_refl) as [I [[-> ->]|(-> & -> & ->)]].
      * split; [intros [X|X]; auto|]. left. auto.
      * split; [intros [X|X]; auto|]. right. auto.
Qed.
Lemma partition_none : forall s, ~ In 61%N s -> partition_eq s = (s, false, []).
Proof.
  intros s H. destruct (partition_eq s) as [[p b] e] eqn:E. destruct (partition_spec _ _ _ _ E) as [I [[-> ->]|(-> & -> & ->)]]; auto.
  destruct H. apply in_or_app. right. left. auto.
Qed.

Lemma options_in : forall y, In y OPTION_STRINGS -> y = ("-h", AHelp) \/ In (fst y) LONG.
Proof. intros y H. repeat destruct H as [<-|H]; try (left; reflexivity); try (right; vm_compute; tauto). Qed.
Lemma long_in : forall name, In name LONG -> exists x, lookup name = Some x /\ In (name, x) OPTION_STRINGS.
Proof.
  intros n H. cbn [LONG In] in H.
  destruct H as [<-|[<-|[<-|[<-|[<-|[<-|[]]]]]]];
    [exists AHelp|exists AVersion|exists ACheck|exists AFormat|exists AValidate|exists AVerbose]; (split; [reflexivity|unfold OPTION_STRINGS; cbn [In]; tauto]).
Qed.
Lemma lookup_in : forall o x, lookup o = Some x -> In (o, x) OPTION_STRINGS.
Proof.
  intros o x H. unfold lookup in H. destruct (find _ _) as [[o' x']|] eqn:F; [|discriminate]. injection H as <-.
  apply find_some in F as [F E]. cbn [fst snd] in *. apply str_eqb_eq in E. subst. auto.
Qed.
Lemma in_lookup : forall o x, In (o, x) OPTION_STRINGS -> lookup o = Some x.
Proof. intros o x H. repeat destruct H as [H|H]; try (injection H as <- <-; reflexivity); contradiction. Qed.
Lemma long_dashes : forall name, In name LONG -> exists c r, name = 45%N :: 45%N :: c :: r.
Proof. intros n H. repeat destruct H as [<-|H]; try (do 2 eexists; reflexivity); contradiction. Qed.
Lemma long_no_eq : forall name, In name LONG -> ~ In 61%N name.
Proof.
  intros n H I. apply has_In in I. revert n H I.
  assert (forallb (fun n => negb (has 61 n)) LONG = true) as F by reflexivity. rewrite forallb_forall in F.
  intros n H I. specialize (F _ H). rewrite I in F. discriminate.
Qed.
Lemma long_prefix : forall a b r, In a LONG -> In b LONG -> a = b ++ r -> a = b.
Proof.
  intros a b r A B E. assert (forallb (fun a => forallb (fun b => negb (startswith b a) || str_eqb a b) LONG) LONG = true) as F by reflexivity.
  rewrite forallb_forall in F. specialize (F _ A). rewrite forallb_forall in F. specialize (F _ B).
  assert (startswith b a = true) as S by (apply startswith_true; eauto). rewrite S in F. apply str_eqb_eq in F. auto.
Qed.
Lemma filter_unique : forall A (P : A -> bool) l x, NoDup l -> In x l -> P x = true -> (forall y, In y l -> P y = true -> y = x) -> filter P l = [x].
Proof.
  intros A P l x. induction l as [|y l IH]; intros D I T U; [destruct I|]. inversion D; subst. cbn [filter]. destruct I as [->|I].
  - rewrite T. f_equal. clear IH D. assert (forall y, In y l -> P y = false) as Z.
    { intros y Y. destruct (P y) eqn:E; auto. assert (y = x) by (apply U; [right|]; auto). subst. contradiction. }
    clear - Z. induction l as [|z l IH]; auto. cbn [filter]. rewrite (Z z) by (left; auto). apply IH. intros. apply Z. right. auto.
  - destruct (P y) eqn:E; [assert (y = x) by (apply U; [left|]; auto); subst; contradiction|]. apply IH; auto. intros. apply U; auto. right. auto.
Qed.
Lemma options_nodup : NoDup OPTION_STRINGS.
Proof. unfold OPTION_STRINGS. repeat constructor; intros X; repeat destruct X as [X|X]; try discriminate X; contradiction. Qed.
Lemma lookup_unique : forall o x y, In (o, x) OPTION_STRINGS -> In (o, y) OPTION_STRINGS -> x = y.
Proof. intros o x y A B. apply in_lookup in A, B. congruence. Qed.

(** an abbreviation begins with two dashes *)
Lemma prefix_dashes : forall name a r, In name LONG -> name = a ++ r -> 2 <= length a -> exists b, a = 45%N :: 45%N :: b.
Proof.
  intros name a r I E L. destruct (long_dashes _ I) as (c & t & ->). destruct a as [|x [|y a]]; cbn in L; try lia. injection E as <- <- _. eauto.
Qed.
Lemma starts2 : forall a, startswith "--" a = true <-> exists b, a = 45%N :: 45%N :: b.
Proof. intros a. rewrite startswith_true. split; intros [r ->]; exists r; reflexivity. Qed.

Lemma means_read : forall a name, means a name -> exists x o, parse_optional a = Optional (Some x, o, None, None) /\ lookup name = Some x.
Proof.
  intros a name (I & L & (r & E) & U). destruct (long_in _ I) as (x & X & J). destruct (prefix_dashes _ _ _ I E) as (b & Ea); [lia|].
  exists x. unfold parse_optional. destruct (lookup a) as [y|] eqn:K.
  - exists a. apply lookup_in in K. assert (a = name) as Q.
    { destruct (options_in _ K) as [Q|Q]; [injection Q as -> ->; vm_compute in L; lia|]. symmetry. apply (long_prefix _ _ r); auto. }
    rewrite Q in K. pose proof (lookup_unique _ _ _ J K). subst y. rewrite Ea. cbn [N.eqb negb]. split; auto.
  - exists name. split; auto. rewrite Ea. change (negb (N.eqb 45 45)) with false. cbv iota. rewrite <- Ea.
    assert (~ In 61%N a) as Q. { intros Q. apply (long_no_eq _ I). rewrite E. apply in_or_app. auto. }
    rewrite (partition_none _ Q). unfold option_tuples. assert (startswith "--" a = true) as S by (apply starts2; eauto).
    rewrite S, (partition_none _ Q). rewrite (filter_unique _ _ _ (name, x)); [reflexivity|apply options_nodup|auto|apply startswith_true; eauto|].
    intros [n y] N Y. cbn [fst] in Y. apply startswith_true in Y as [t Y]. destruct (options_in _ N) as [Z|Z].
    { injection Z as -> ->. subst a. discriminate. }
    cbn [fst] in Z. assert (n = name) as Q' by (eapply U; eauto). rewrite Q' in N |- *. rewrite (lookup_unique _ _ _ N J). reflexivity.
Qed.

Lemma read_means : forall a x o sep, parse_optional a = Optional (Some x, o, sep, None) ->
  (a = "-h" /\ x = AHelp) \/ exists name, means a name /\ lookup name = Some x.
Proof.
  intros a x o sep H. unfold parse_optional in H. destruct a as [|c r]; [discriminate|]. destruct (N.eqb_spec c 45); [|discriminate]. subst c.
  cbn [negb] in H. remember (45%N :: r) as a eqn:Ea. destruct (lookup a) as [y|] eqn:K.
  { injection H as -> <- <-. pose proof (lookup_in _ _ K) as J. destruct (options_in _ J) as [Q|Q]; [injection Q as Qa ->; left; subst; auto|]. right. exists a. split; auto.
    cbn [fst] in Q. repeat split; auto.
    - destruct (long_dashes _ Q) as (u & v & ->). cbn. lia.
    - exists []. rewrite app_nil_r. auto.
    - intros other t O E. eapply long_prefix; eauto. }
  destruct r as [|d r]; [discriminate|]. destruct (partition_eq a) as [[p b] e] eqn:P.
  destruct (if b then lookup p else None) as [y|]; [discriminate|].
  destruct (option_tuples a) as [|t [|t' l]] eqn:T; [|injection H as ->|discriminate].
  { destruct (negative_number a); [discriminate|]. destruct (has 32 a); discriminate. }
  unfold option_tuples in T. destruct (startswith "--" a) eqn:S.
  - rewrite P in T. destruct (partition_spec _ _ _ _ P) as [I [[-> _]|(-> & Ep & ->)]].
    { destruct (filter _ _); [discriminate|]. cbn in T. injection T as T _. discriminate. }
    destruct (filter _ _) as [|[n z] l] eqn:F; [discriminate|]. injection T as -> -> <- T. destruct l; [|discriminate].
    subst p. right. assert (In (o, x) OPTION_STRINGS /\ startswith a o = true) as [J Y].
    { assert (In (o, x) (filter (fun y => startswith a (fst y)) OPTION_STRINGS)) as G by (rewrite F; left; auto). apply filter_In in G as [G1 G2]. auto. }
    exists o. split; [|apply in_lookup; auto].
    assert (3 <= length a) as L.
    { apply starts2 in S as [[|u v] S]; rewrite S; [|cbn; lia]. rewrite S in F. vm_compute in F. discriminate. }
    assert (In o LONG) as O.
    { destruct (options_in _ J) as [Q|Q]; auto. injection Q as -> ->. apply startswith_true in Y as [w Y]. apply (f_equal (@length N)) in Y. rewrite app_length in Y. cbn in Y. lia. }
    split; auto. split; auto. split; [apply startswith_true; auto|]. intros other w O' E'.
    destruct (long_in _ O') as (y & _ & J'). assert (In (other, y) (filter (fun y => startswith a (fst y)) OPTION_STRINGS)) as G.
    { apply filter_In. split; auto. apply startswith_true. eauto. }
    rewrite F in G. destruct G as [G|[]]. injection G as -> _. reflexivity.
  - left. exfalso. match type of T with ?l = _ => assert (In (Some x, o, sep, None) l) as I by (rewrite T; left; reflexivity) end. apply in_flat_map in I as ([n y] & J & I).
    cbn [fst snd] in I. destruct (str_eqb n (firstn 2 a)); [destruct I as [I|[]]; discriminate|].
    destruct (startswith a n) eqn:Y; [|destruct I]. apply startswith_true in Y as [w Y]. subst a. destruct (options_in _ J) as [Q|Q].
    + injection Q as -> ->. cbn in Y. injection Y as <- Y. destruct r; [|discriminate]. vm_compute in K. discriminate.
    + cbn [fst] in Q. destruct (long_dashes _ Q) as (u & v & E). rewrite E in Y. injection Y as <- _. discriminate.
Qed.

Lemma cluster_head : forall e x o sep xs l, cluster x o sep e = Some (xs, l) -> exists ys, xs = x :: ys.
Proof.
  intros e x o sep xs l H. destruct e; cbn [cluster] in H; destruct (nth_error o 1); try discriminate; destruct (N.eqb _ 45); try discriminate.
  destruct (_ || _); [discriminate|]. destruct (lookup _); [|injection H as <- <-; eauto].
  destruct e; [injection H as <- <-; eauto|]. destruct (if N.eqb _ 61 then _ else _) as [z|]; [|discriminate]. injection H as <- <-. eauto.
Qed.
Lemma explicit_exits : forall a x o sep e, parse_optional a = Optional (Some x, o, sep, Some e) ->
  forall p, exists n, consume_optional (Some x, o, sep, Some e) a p = Exit n.
Proof.
  intros a x o sep e H p. cbn [consume_optional].
  assert (cluster x o (match sep with Some s => s | None => [] end) e = None \/ x = AHelp) as G; cycle 1.
  { destruct (cluster x o _ e) as [[xs l]|] eqn:C; [|eauto]. destruct G as [G| ->]; [discriminate|].
    apply cluster_head in C as [ys ->]. cbn [take_actions take_action]. eauto. }
  unfold parse_optional in H. destruct a as [|c r]; [discriminate|]. destruct (N.eqb_spec c 45); [|discriminate]. subst c.
  cbn [negb] in H. remember (45%N :: r) as a eqn:Ea. destruct (lookup a) as [y|] eqn:K; [discriminate|].
  destruct r as [|d r]; [discriminate|]. destruct (partition_eq a) as [[p' b] e'] eqn:P.
  assert (forall y, In (o, x) OPTION_STRINGS -> cluster x o y e = None \/ x = AHelp) as D.
  { intros y J. destruct (options_in _ J) as [Q|Q]; [injection Q as _ ->; auto|]. cbn [fst] in Q. left. destruct (long_dashes _ Q) as (u & v & ->). destruct e; reflexivity. }
  destruct (if b then lookup p' else None) as [y|] eqn:L.
  { injection H as -> -> <- ->. destruct b; [|discriminate]. apply D. apply lookup_in. auto. }
  destruct (option_tuples a) as [|t [|t' l]] eqn:T; [|injection H as ->|discriminate].
  { destruct (negative_number a); [discriminate|]. destruct (has 32 a); discriminate. }
  apply D. unfold option_tuples in T. match type of T with ?l = _ => assert (In (Some x, o, sep, Some e) l) as I by (rewrite T; left; reflexivity) end.
  destruct (startswith "--" a).
  - rewrite P in I. apply in_map_iff in I as ([n y] & E & I). injection E as -> -> _ _. apply filter_In in I as [I _]. auto.
  - apply in_flat_map in I as ([n y] & J & I). cbn [fst snd] in I. destruct (str_eqb n _); [destruct I as [I|[]]; injection I as -> -> _ _; auto|].
    destruct (startswith a n); [destruct I as [I|[]]; discriminate|destruct I].
Qed.

(** negative numbers *)
Lemma split_dot : forall r a b, split 46 r = [a; b] <-> r = a ++ 46%N :: b /\ ~ In 46%N a /\ ~ In 46%N b.
Proof.
  assert (forall r, split 46 r <> []) as NE. { intros [|c r]; cbn; [discriminate|]. destruct (N.eqb c 46); [discriminate|]. destruct (split 46 r); discriminate. }
  assert (forall r a, split 46 r = [a] <-> r = a /\ ~ In 46%N a) as ONE.
  { induction r as [|c r IH]; intros a; cbn [split].
    - split; [intros [= <-]; split; auto|intros [<- _]; auto].
    - destruct (N.eqb_spec c 46).
      + split; [intros H; injection H as _ H; destruct (NE _ H)|]. intros [<- H]. destruct H. left. auto.
      + destruct (split 46 r) as [|p ps] eqn:S; [destruct (NE _ S)|]. split.
        * intros [= <- ->]. destruct (IH p) as [G _]. destruct (G eq_refl) as [-> G2]. split; auto. intros [X|X]; auto.
        * intros [<- H]. assert (p :: ps = [r]) as G. { apply IH. split; auto. intros X. apply H. right. auto. } injection G as -> ->. auto. }
  induction r as [|c r IH]; intros a b; cbn [split].
  - split; [discriminate|]. intros (H & _). destruct a; discriminate.
  - destruct (N.eqb_spec c 46).
    + subst. split.
      * intros [= <- H]. apply ONE in H as [-> H]. repeat split; auto.
      * intros (H & A & B). destruct a as [|x a]; [|injection H as <- _; destruct A; left; auto]. injection H as ->. f_equal. apply ONE. auto.
    + destruct (split 46 r) as [|p ps] eqn:S; [destruct (NE _ S)|]. split.
      * intros [= <- ->]. destruct (IH p b) as [G _]. destruct (G eq_refl) as (-> & G1 & G2). repeat split; auto. intros [X|X]; auto.
      * intros (H & A & B). destruct a as [|x a]; [injection H as -> _; contradiction|]. injection H as -> H.
        assert (p :: ps = [a; b]) as G. { apply IH. repeat split; auto. intros X. apply A. right. auto. } injection G as -> ->. auto.
Qed.
Lemma digits_no_dot : forall d, forallb is_digit_c d = true -> ~ In 46%N d.
Proof. intros d H I. rewrite forallb_forall in H. apply H in I. discriminate. Qed.
Lemma isdigit_all : forall d, isdigit d = true <-> d <> [] /\ forallb is_digit_c d = true.
Proof. intros [|c d]; cbn [isdigit]; split; try discriminate; intros H; [destruct H; congruence|split; [discriminate|auto]|destruct H; auto]. Qed.
Definition numeralb (r : str) : bool := isdigit r || match split 46 r with [a; b] => forallb is_digit_c a && isdigit b | _ => false end.
Lemma numeralb_spec : forall r, numeralb r = true <-> numeral r.
Proof.
  intros r. unfold numeralb, numeral. rewrite orb_true_iff. split; intros [H|H]; auto; right.
  - destruct (split 46 r) as [|a [|b [|]]] eqn:S; try discriminate. apply split_dot in S as (-> & A & B). apply andb_prop in H as [H1 H2].
    exists a, b. repeat split; auto. destruct a; auto.
  - destruct H as (d & e & -> & D & E). assert (forallb is_digit_c d = true) as D' by (destruct D as [->|D]; auto; apply isdigit_all in D as [_ D]; auto).
    assert (split 46 (d ++ 46%N :: e) = [d; e]) as S. { apply split_dot. repeat split; apply digits_no_dot; auto. apply isdigit_all in E as [_ E]. auto. }
    rewrite S, D', E. auto.
Qed.
Lemma numeral_no_nl : forall b, numeral b -> b <> [] /\ ~ In 10%N b.
Proof.
  assert (forall d, forallb is_digit_c d = true -> ~ In 10%N d) as N. { intros d H I. rewrite forallb_forall in H. apply H in I. discriminate. }
  intros b [H|(d & e & -> & D & E)].
  - apply isdigit_all in H as [H1 H2]. auto.
  - split; [destruct d; discriminate|]. intros I. apply isdigit_all in E as [_ E]. apply in_app_or in I as [I|[I|I]]; [|discriminate|apply (N _ E I)].
    destruct D as [->|D]; [destruct I|]. apply isdigit_all in D as [_ D]. apply (N _ D I).
Qed.
Lemma negative_spec : forall a, negative_number a = true <-> exists b, numeral b /\ (a = 45%N :: b \/ a = 45%N :: b ++ [10%N]).
Proof.
  intros a. unfold negative_number, chop_nl. split.
  - intros H. destruct (endswith [10%N] a) eqn:E.
    + apply endswith_true in E as [r ->]. rewrite removelast_last in H. destruct r as [|c r]; [discriminate|]. apply andb_prop in H as [H1 H2].
      apply N.eqb_eq in H1. subst c. exists r. split; [apply numeralb_spec; auto|]. right. reflexivity.
    + destruct a as [|c r]; [discriminate|]. apply andb_prop in H as [H1 H2]. apply N.eqb_eq in H1. subst. exists r. split; auto. apply numeralb_spec; auto.
  - intros (b & B & [->| ->]).
    + destruct (numeral_no_nl _ B) as [B1 B2]. assert (endswith [10%N] (45%N :: b) = false) as E.
      { destruct (endswith _ _) eqn:E; auto. apply endswith_true in E as [r E]. exfalso. apply B2.
        assert (In 10%N (45%N :: b)) as I by (rewrite E; apply in_or_app; right; left; auto). destruct I as [I|I]; [discriminate|auto]. }
      rewrite E. cbn [N.eqb andb]. apply numeralb_spec in B. unfold numeralb in B. rewrite B. reflexivity.
    + assert (endswith [10%N] (45%N :: b ++ [10%N]) = true) as E by (apply endswith_true; exists (45%N :: b); reflexivity).
      rewrite E. change (45%N :: b ++ [10%N]) with ((45%N :: b) ++ [10%N]). rewrite removelast_last. apply numeralb_spec in B. unfold numeralb in B. rewrite B. reflexivity.
Qed.

(** which words are like options *)
Lemma like_dashes : forall a, like_option a -> exists b, a = 45%N :: 45%N :: b.
Proof.
  intros a (n & p & r & I & E & L & [->|[e ->]]); destruct (prefix_dashes _ _ _ I E L) as (b & ->); cbn; eauto.
Qed.
Lemma read_file : forall a, parse_optional a = Positional <-> file_word a.
Proof.
  intros a. unfold parse_optional. destruct a as [|c r].
  { split; auto. intros _. left. intros; discriminate. }
  destruct (N.eqb_spec c 45).
  2:{ cbn [negb]. split; auto. intros _. left. intros r' E. congruence. }
  subst c. cbn [negb]. remember (45%N :: r) as a eqn:Ea. unfold file_word.
  assert (forall r0, lookup a = None -> r = r0 -> r <> [] -> (option_tuples a = [] <-> ~ like_option a /\ (forall s, a <> "-h" ++ s))) as OT.
  { intros r0 K _ NE. unfold option_tuples. destruct (partition_eq a) as [[p b] e] eqn:P. destruct (startswith "--" a) eqn:S.
    - assert (forall s, a <> "-h" ++ s) as NH by (intros s E; rewrite E in S; discriminate).
      split.
      + intros T. split; auto. intros (n & q & t & I & E & L & A). apply map_eq_nil in T.
        destruct (long_in _ I) as (x & _ & J). assert (In (n, x) (filter (fun y => startswith p (fst y)) OPTION_STRINGS)) as G; [|rewrite T in G; destruct G].
        apply filter_In. split; auto. apply startswith_true. exists t. rewrite E. cbn [fst]. f_equal.
        assert (~ In 61%N q) as Q. { intros X. apply (long_no_eq _ I). rewrite E. apply in_or_app. auto. }
        destruct A as [A|[e' A]].
        * rewrite <- A in Q. rewrite (partition_none _ Q) in P. injection P as P _ _. congruence.
        * destruct (partition_spec _ _ _ _ P) as [X [[-> Y]|(-> & Y & ->)]].
          -- rewrite Y in A. clear - A X Q. revert q A Q. induction p as [|u p IH]; intros [|v q] A Q; cbn in A; auto.
             ++ injection A as A _. destruct Q. left. auto.
             ++ injection A as A _. destruct X. left. auto.
             ++ injection A as -> A. f_equal. apply IH; auto; intros Z; [apply X|apply Q]; right; auto.
          -- destruct X. rewrite <- Y, A. apply in_or_app. right. left. auto.
      + intros [NL _]. destruct (filter _ _) as [|[n x] l] eqn:F; auto. exfalso. apply NL.
        assert (In (n, x) (filter (fun y => startswith p (fst y)) OPTION_STRINGS)) as G by (rewrite F; left; auto). apply filter_In in G as [G1 G2].
        cbn [fst] in G2. apply startswith_true in G2 as [t G2].
        assert (2 <= length p) as L.
        { destruct (partition_spec _ _ _ _ P) as [X [[-> Y]|(-> & Y & ->)]]; apply starts2 in S as [w S].
          - rewrite S in Y. destruct p as [|u [|v p]]; cbn; try lia; discriminate.
          - subst p. rewrite S. cbn. lia. }
        destruct (options_in _ G1) as [Q|Q].
        { injection Q as -> ->. exfalso. destruct (partition_spec _ _ _ _ P) as [X [[-> Y]|(-> & Y & ->)]]; apply starts2 in S as [w S]; rewrite S in Y.
          - destruct p as [|u [|v p]]; cbn in L; try lia. injection Y as <- <- _. discriminate.
          - subst p. discriminate. }
        cbn [fst] in Q. exists n, p, t. repeat split; auto. destruct (partition_spec _ _ _ _ P) as [X [[-> Y]|(-> & Y & ->)]]; eauto.
    - assert (~ like_option a) as NL. { intros X. apply like_dashes in X as [w X]. rewrite X in S. discriminate. }
      split.
      + intros T. split; auto. intros s E. match type of T with ?m = _ => assert (In (Some AHelp, "-h", Some "", Some s) m) as G; [|rewrite T in G; destruct G] end. apply in_flat_map.
        exists ("-h", AHelp). split; [left; auto|]. rewrite E. left. reflexivity.
      + intros [_ NH]. destruct (flat_map _ _) as [|t l] eqn:F; auto. exfalso.
        match type of F with ?m = _ => assert (In t m) as G by (rewrite F; left; reflexivity) end. apply in_flat_map in G as ([n x] & J & G). cbn [fst snd] in G.
        destruct (str_eqb n (firstn 2 a)) eqn:Q.
        * apply str_eqb_eq in Q. subst a. destruct r as [|d r]; [contradiction|]. cbn in Q. subst n. destruct (options_in _ J) as [Z|Z].
          -- injection Z as -> ->. apply (NH r). reflexivity.
          -- cbn [fst] in Z. destruct (long_dashes _ Z) as (u & v & Z'). discriminate.
        * destruct (startswith a n) eqn:Y; [|destruct G]. apply startswith_true in Y as [w Y]. subst a. destruct (options_in _ J) as [Z|Z].
          -- injection Z as -> ->. cbn in Y. injection Y as Y. destruct r as [|d r]; [contradiction|]. injection Y as <- Y. apply (NH r). reflexivity.
          -- cbn [fst] in Z. destruct (long_dashes _ Z) as (u & v & E). rewrite E in Y. destruct r as [|d r]; [contradiction|]. injection Y as <- _. discriminate. }
  destruct (lookup a) as [x|] eqn:K.
  { split; [discriminate|]. apply lookup_in in K. intros [H|[H|(_ & H1 & H2)]]; exfalso.
    - apply (H r). auto.
    - rewrite H in K. repeat destruct K as [K|K]; try discriminate. destruct K.
    - destruct (options_in _ K) as [Q|Q]; [injection Q as Q _; apply (H2 []); rewrite app_nil_r; auto|]. cbn [fst] in Q. apply H1.
      exists a, a, []. rewrite app_nil_r. repeat split; auto. destruct (long_dashes _ Q) as (u & v & ->). cbn. lia. }
  destruct r as [|d r].
  { split; auto. }
  specialize (OT _ eq_refl eq_refl ltac:(discriminate)).
  destruct (partition_eq a) as [[p b] e] eqn:P.
  destruct (if b then lookup p else None) as [x|] eqn:L.
  { split; [discriminate|]. destruct b; [|discriminate]. destruct (partition_spec _ _ _ _ P) as [X [[_ Y]|(Z & _)]]; [|discriminate].
    apply lookup_in in L. intros [H|[H|(_ & H1 & H2)]]; exfalso.
    - apply (H (d :: r)). auto.
    - congruence.
    - destruct (options_in _ L) as [Q|Q]; [injection Q as -> _; apply (H2 (61%N :: e)); auto|]. cbn [fst] in Q. apply H1.
      exists p, p, []. rewrite app_nil_r. repeat split; eauto. destruct (long_dashes _ Q) as (u & v & ->). cbn. lia. }
  assert (~ (forall s, a <> 45%N :: s)) as N1 by (intros H; apply (H (d :: r)); auto).
  assert (a <> "-") as N2 by congruence.
  rewrite <- negative_spec. destruct (option_tuples a) as [|t [|t' l]] eqn:T.
  - destruct OT as [OT _]. specialize (OT eq_refl). destruct (negative_number a) eqn:NN; [split; auto|]. destruct (has 32 a) eqn:HB.
    + split; auto. intros _. right. right. split; [right; apply has_In; auto|auto].
    + split; [discriminate|]. intros [H|[H|([H|H] & _)]]; try contradiction; [discriminate|]. apply has_In in H. congruence.
  - split; [discriminate|]. intros [H|[H|(_ & H)]]; try contradiction. apply OT in H. discriminate.
  - split; [discriminate|]. intros [H|[H|(_ & H)]]; try contradiction. apply OT in H. discriminate.
Qed.
