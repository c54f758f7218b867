(** The parser inverts [toks] on the grammar fragment: expressions. *)
From Verif Require Import PyStr Lib Digits AstLib PyFloat Tokeniser Ast Parser Api ProofTerm ProofFuel Ideal Grammar Scan GramTok.
Local Open Scope str_scope.
Local Open Scope list_scope.

(** what may follow *)
Definition nf (L : list str) (r : list str) : Prop := match r with [] => True | t :: _ => ~ In (lower t) L end.
Lemma nf_weak : forall L L' r, nf L r -> incl L' L -> nf L' r.
Proof. intros L L' [|t r] H I; cbn in *; auto. Qed.
Lemma nf_nil : forall L, nf L [].
Proof. intros L. exact I. Qed.
Lemma nf_app : forall L L' r, nf (L ++ L') r <-> nf L r /\ nf L' r.
Proof. intros L L' [|t r]; cbn; [tauto|]. rewrite in_app_iff. tauto. Qed.
Lemma nf_is : forall L r k, nf L r -> In k L -> olow_is (hd_error r) k = false.
Proof. intros L [|t r] k H I; auto. cbn in *. apply str_eqb_neq. intros <-. auto. Qed.
Lemma nf_eq : forall L r k, nf L r -> In k L -> lower k = k -> opt_eqb (hd_error r) k = false.
Proof. intros L [|t r] k H I E; auto. cbn in *. apply str_eqb_neq. intros ->. rewrite E in H. auto. Qed.
Lemma nf_mem : forall L r, nf L r -> olow_in (hd_error r) L = false.
Proof. intros L [|t r] H; auto. cbn in *. apply mem_false. auto. Qed.
Definition LOW (L : list str) : bool := forallb (fun k => str_eqb (lower k) k) L.
Lemma low_In : forall L t, LOW L = true -> In t L -> In (lower t) L.
Proof. intros L t H I. unfold LOW in H. rewrite forallb_forall in H. assert (X := H t I). apply str_eqb_eq in X. rewrite X. auto. Qed.
Lemma nf_raw : forall L t r, LOW L = true -> nf L (t :: r) -> mem t L = false.
Proof. intros L t r H N. apply mem_false. intros I. apply N. apply low_In; auto. Qed.
Lemma next_hd : forall r, next_opt None r = Ok (hd_error r, tl r).
Proof. intros [|t r]; auto. Qed.

Definition FA : list str := ["("; "over"; "filter"; "from"].
Definition F0 : list str := FA ++ ["["; "."].
Definition AR : list str := ["+"; "-"; "*"; "/"].
Definition CMP : list str := PREDICATES ++ "between" :: BITWISE_OPERATORS.

(** ** Bracketed lists with more stops *)
Lemma lower_marks : forall t, In (lower t) MARKS -> In t MARKS.
Proof.
  intros t H. assert (X : forall x, In x MARKS -> lower t = x -> t = x).
  { intros x I E. apply lower_sign; auto; cbn in I; repeat (destruct I as [<-|I]; [reflexivity|]); destruct I. }
  rewrite (X _ H eq_refl). auto.
Qed.
Definition BASE : list str := MARKS ++ ["case"; "end"; "with"; "timestamp_trunc"].
Lemma plain_BASE : forall t, plain t -> ~ In (lower t) BASE.
Proof. intros t [A B] H. apply in_app_iff in H as [H|H]; auto. apply A, lower_marks. auto. Qed.
Lemma bl_add : forall w K u, bl w K u -> forall K', (forall x, In x K' -> In x K \/ In x BASE) -> bl w K' u.
Proof.
  intros w K u H. induction H; intros K' I.
  - apply bl_nil.
  - apply bl_tok; auto. intros X. apply I in X as [X|X]; auto. eapply plain_BASE; eauto.
  - apply bl_par; auto.
  - apply bl_sq; auto.
  - apply bl_case; auto. apply IHbl1. intros x X. apply minus_In in X as [X Y]. apply I in X as [X|X]; auto. left. apply minus_In. auto.
  - apply bl_str; auto. destruct H0 as [H0|(c & A & B & C)]; [auto|right; exists c; split; [auto|split; [auto|]]].
    intros X. apply I in X as [X|X]; auto. eapply plain_BASE; eauto.
  - apply bl_wo; auto.
  - apply bl_wi; auto. intros X. apply I in X as [X|X]; auto. eapply plain_BASE; eauto.
Qed.
Lemma bl_base : forall u K, bl true [] u -> inclb K BASE = true -> bl true K u.
Proof. intros u K H I. eapply bl_add; eauto. intros x X. right. revert x X. apply inclb_ok. auto. Qed.
Lemma bl_tt : forall w K u, bl w K u -> existsb (fun t => str_eqb (lower t) "timestamp_trunc") u = false.
Proof.
  assert (P : forall t, plain t -> str_eqb (lower t) "timestamp_trunc" = false).
  { intros t [_ H]. apply str_eqb_neq. intros E. apply H. rewrite E. do 3 right. left. auto. }
  assert (Q : forall q, In q QUOTES -> str_eqb (lower q) "timestamp_trunc" = false).
  { intros q [<-|[<-|[<-|[]]]]; auto. }
  intros w K u H. induction H; cbn [existsb]; rewrite ?existsb_app; cbn [existsb]; rewrite ?IHbl, ?IHbl1, ?IHbl2, ?P, ?Q, ?orb_false_r by auto; auto.
  - rewrite H, H0. auto.
  - destruct H0 as [->|(c & -> & C & _)]; cbn [existsb]; rewrite ?P by auto; auto.
  - rewrite H0, H1. auto.
  - rewrite H, (P b) by auto. auto.
Qed.

(** ** First tokens *)
Lemma no_dots_word : forall v, word v = true -> no_dots v = v.
Proof.
  intros v H. unfold word in H. bools. clear H. induction v as [|c v IH]; auto. cbn [forallb] in H0. bools.
  unfold no_dots, replace_c in *. cbn [flat_map]. assert (X : N.eqb c 46 = false).
  { unfold word_char in H. apply negb_true_iff in H. cbn in H. repeat (apply orb_false_iff in H as [? H]; auto). }
  rewrite X. cbn. f_equal. auto.
Qed.
Definition SPECIALS : list str := BOOLEAN_VALUES ++ NULL_VALUES ++ ["not"; "case"; "select"].
Lemma ident_first : forall P eos o v ts, ident v = true -> expr_first P eos o v ts = Ok (None, None, ts).
Proof.
  intros P eos o v ts H. assert (M := ident_marks v H). assert (W := H). unfold ident in W. bools.
  assert (S : forall L, inclb L SPECIALS = true -> mem (lower v) L = false).
  { intros L I. apply mem_false. intros X. apply inclb_ok in I. apply I in X. revert X. apply ident_not; auto. }
  assert (S1 : forall k, mem k SPECIALS = true -> str_eqb (lower v) k = false).
  { intros k K. assert (X := S [k]). cbn [inclb forallb] in X. rewrite K in X. specialize (X eq_refl). cbn [mem existsb] in X.
    rewrite orb_false_r in X. auto. }
  assert (D : isdigit v = false) by auto. unfold expr_first. rewrite (no_dots_word v), D by auto.
  replace (mem v QUOTES) with false by (symmetry; apply mem_false; intros X; apply M; revert X; apply inclb_ok; reflexivity).
  rewrite !S, !S1 by reflexivity.
  replace (str_eqb v "(") with false by (symmetry; apply str_eqb_neq; intros ->; apply M; left; auto).
  replace (str_eqb v "[") with false by (symmetry; apply str_eqb_neq; intros ->; apply M; right; right; left; auto).
  auto.
Qed.
Lemma letter_nodigit : forall t, existsb is_lower_c (lower t) = true -> isdigit t = false /\ isdigit (no_dots t) = false.
Proof.
  intros t H. assert (X : exists c, In c t /\ is_digit_c c = false /\ N.eqb c 46 = false).
  { apply existsb_exists in H as (c & C & L). unfold lower in C. apply in_map_iff in C as (d & <- & D). exists d. split; auto.
    unfold is_lower_c, lower_c, is_upper_c, is_digit_c in *. destruct ((65 <=? d) && (d <=? 90))%N eqn:U;
    rewrite ?andb_true_iff, ?andb_false_iff, ?N.leb_le, ?N.leb_gt, ?N.eqb_neq in *; lia. }
  destruct X as (c & C & D & E).
  assert (F : forall s, In c s -> isdigit s = false).
  { intros s I. destruct s as [|x s]; [destruct I|]. unfold isdigit. apply not_true_is_false. intros F. rewrite forallb_forall in F.
    apply F in I. congruence. }
  split; apply F; auto. unfold no_dots, replace_c. clear - C E. induction t as [|d t IH]; [destruct C|]. cbn [flat_map].
  destruct C as [->|C]; [rewrite E; left; auto|]. apply in_or_app. right. auto.
Qed.
Lemma kw_first : forall P eos o t k ts, lower t = k -> existsb is_lower_c k = true -> mem k SPECIALS = false ->
  expr_first P eos o t ts = Ok (None, None, ts).
Proof.
  intros P eos o t k ts E L S. assert (M := word_plain t k E L). rewrite <- E in L. destruct (letter_nodigit t L) as [D1 D2].
  apply mem_false in S.
  assert (S0 : forall L, inclb L SPECIALS = true -> mem k L = false).
  { intros L' I. apply mem_false. intros X. apply inclb_ok in I. auto. }
  assert (S1 : forall x, mem x SPECIALS = true -> str_eqb k x = false).
  { intros x X. apply str_eqb_neq. intros ->. apply mem_In in X. auto. }
  unfold expr_first. rewrite D1, D2, E.
  replace (mem t QUOTES) with false by (symmetry; apply mem_false; intros X; apply M; revert X; apply inclb_ok; reflexivity).
  rewrite !S0, !S1 by reflexivity.
  replace (str_eqb t "(") with false by (symmetry; apply str_eqb_neq; intros ->; apply M; left; auto).
  replace (str_eqb t "[") with false by (symmetry; apply str_eqb_neq; intros ->; apply M; right; right; left; auto).
  auto.
Qed.

Lemma join_split : forall s, join " " (split 32 s) = s.
Proof.
  induction s as [|c s IH]; auto. cbn [split]. destruct (N.eqb_spec c 32) as [->|N].
  - destruct (split 32 s) eqn:E; [destruct s; cbn in E; [discriminate|destruct (_ =? _)%N; [discriminate|destruct (split 32 s); discriminate]]|].
    cbn [join app] in *. rewrite IH. auto.
  - destruct (split 32 s) as [|p ps] eqn:E; [cbn in IH; subst; auto|]. destruct ps; cbn [join app] in *; rewrite <- IH; auto.
Qed.
Lemma digits_us_ok : forall s b, forallb is_digit_c s = true -> s <> [] -> digits_us b s = Some s.
Proof.
  induction s as [|c s IH]; intros b H N; [congruence|]. cbn [forallb] in H. bools. cbn [digits_us]. rewrite H.
  destruct s as [|d s]; auto. rewrite IH by (auto; discriminate). auto.
Qed.
Lemma strip_digits : forall s, forallb is_digit_c s = true -> strip s = s.
Proof.
  assert (A : forall s, forallb is_digit_c s = true -> dropwhile is_space_c s = s).
  { intros [|c s] H; auto. cbn [forallb] in H. bools. cbn [dropwhile]. replace (is_space_c c) with false; auto.
    symmetry. unfold is_space_c, is_digit_c in *. bools. apply N.leb_le in H, H1. cbn [existsb].
    repeat (rewrite (proj2 (N.eqb_neq c _)) by lia; cbn [orb]). auto. }
  intros s H. unfold strip. rewrite (A s H), A, rev_involutive; auto.
  rewrite forallb_forall in *. intros c C. apply H. apply in_rev. auto.
Qed.
Lemma py_int_Z : forall d, isdigit d = true -> py_int d = Ok (value d).
Proof.
  intros d H. assert (V := isdigit_value d H). assert (F := digits_all d H).
  unfold py_int. rewrite strip_digits by auto. destruct d as [|c s] eqn:E; [discriminate|].
  assert (C : is_digit_c c = true) by (cbn [forallb] in F; bools; auto).
  unfold is_digit_c in C. bools. apply N.leb_le in H0, H1.
  rewrite (proj2 (N.eqb_neq c 45)), (proj2 (N.eqb_neq c 43)) by lia. rewrite digits_us_ok by (auto; discriminate). rewrite V. auto.
Qed.

(** ** What is shown for each node *)
Definition noalias (U : list str) (r : list str) : Prop :=
  match r with [] => True | t :: _ => t = ")" \/ t = ";" \/ In (lower t) U end.
Definition BO : list str := ["and"; "or"].
Definition XR : list str := ["except"; "replace"].
Definition FULL : list str := F0 ++ AR ++ CMP ++ BO ++ XR.
Definition reads (o : eopts) (m : node) (F : list str) (C : list str -> Prop) : Prop :=
  forall ss r, spelling (toks m) ss -> nf F r -> C r -> p_expr PI None o (ss ++ r) = Ok (m, hd_error r, tl r).
Definition any (r : list str) : Prop := True.
Definition full (ca : bool) (U : list str) : eopts := mk_eopts false false ca U None false.
Definition opts_ch (U : list str) : eopts := mk_eopts false false true U None true.
Record spec (m : node) : Prop := mk_spec {
  s_rh : wf Ex m = true -> lvl m <= 2 -> forall U, reads (opts_rh U) m (F0 ++ AR) any;
  s_ch : wf Ex m = true -> lvl m <= 1 \/ is_index m = true -> forall U, reads (opts_ch U) m F0 any;
  s_full : wf Ex m = true -> lvl m <= 4 -> forall U ca, reads (full ca U) m FULL (noalias U);
  s_arg : argok m = true -> forall ss, spelling (toks m) ss -> p_expr PI None opts0 ss = Ok (m, None, []);
  s_from : wf Fr m = true -> forall ss, spelling (toks m) ss -> p_from PI ss = Ok m;
  s_sel : wf St m = true -> is_sel m = true -> forall t ss, spelling (toks m) (t :: ss) -> p_select PI None ss = Ok m;
  s_stmt : wf St m = true -> forall ss, spelling (toks m) ss -> p_stmt PI None ss = Ok m }.

Lemma full_end : forall m, spec m -> wf Ex m = true -> lvl m <= 4 -> forall ca U ss, spelling (toks m) ss ->
  p_expr PI None (full ca U) ss = Ok (m, None, []).
Proof.
  intros m S W L ca U ss SP. assert (X := s_full m S W L U ca ss [] SP (nf_nil _)). rewrite app_nil_r in X. apply X. exact I.
Qed.
Lemma rh_end : forall m, spec m -> wf Ex m = true -> lvl m <= 2 -> forall U ss, spelling (toks m) ss ->
  p_expr PI None (opts_rh U) ss = Ok (m, None, []).
Proof.
  intros m S W L U ss SP. assert (X := s_rh m S W L U ss [] SP (nf_nil _)). rewrite app_nil_r in X. apply X. exact I.
Qed.

(** ** Tokens are not empty *)
Lemma app_cons_nonnil : forall {A} (a : list A) x b, a ++ x :: b <> [].
Proof. intros A [|? ?] x b; discriminate. Qed.
Lemma kws_nonnil : forall s, kws s <> [].
Proof.
  intros s. unfold kws. destruct (split 32 (lower s)) eqn:E; [|discriminate]. exfalso. destruct (lower s); [discriminate|]. cbn in E.
  destruct (_ =? _)%N; [discriminate|]. destruct (split 32 _); discriminate.
Qed.
Lemma app_r_nonnil : forall {A} (a b : list A), b <> [] -> a ++ b <> [].
Proof. intros A [|? ?] b H; [auto|discriminate]. Qed.
Lemma app_l_nonnil : forall {A} (a b : list A), a <> [] -> a ++ b <> [].
Proof. intros A [|? ?] b H; [congruence|discriminate]. Qed.
Lemma str_toks : forall x, is_str x = true -> toks x <> [].
Proof. intros x H. destruct x; try discriminate H. cbn [toks]. discriminate. Qed.
Lemma toks_nonnil : forall n, wf Ex n = true -> toks n <> [].
Proof.
  intros n H. destruct n; try discriminate H; cbn [toks]; unfold parens, brackets; try discriminate; try (apply app_cons_nonnil).
  - destruct (z <? 0)%Z; discriminate.
  - destruct text as [|c t]; [discriminate|]. repeat (try discriminate; destruct c as [|c]; try discriminate; try destruct c as [c|c|]; try discriminate).
    all: repeat (destruct c as [c|c|]; try discriminate).
  - rewrite wf_alias in H. bools. apply app_r_nonnil. destruct with_as; [discriminate|]. destruct alias as [t|x]; [discriminate|].
    cbn [aliasok] in *. bools. cbn [app]. apply str_toks. auto.
  - destruct (str_eqb (lower pred) "between"); [apply app_cons_nonnil|]. apply app_r_nonnil, app_l_nonnil.
    destruct (mem pred ["is not"; "not in"]); [apply kws_nonnil|discriminate].
Qed.
Lemma spelling_nonnil : forall ts ss, spelling ts ss -> ts <> [] -> ss <> [].
Proof. intros ts ss H N ->. inversion H. congruence. Qed.
Lemma ex_not_sel : forall n, wf Ex n = true -> is_sel n = false.
Proof. intros n H. destruct n; try reflexivity; discriminate H. Qed.
Lemma upto_arg : forall n k, k <= 8 -> wf Ex n = true -> lvl n <= k -> argok n = true.
Proof.
  intros n k K H L. unfold argok. rewrite ex_not_sel, H by auto. cbn [andb]. apply Nat.leb_le. lia.
Qed.
Lemma arg_nonnil : forall a ss, argok a = true -> spelling (toks a) ss -> ss <> [].
Proof.
  intros a ss H S. eapply spelling_nonnil; eauto. unfold argok in H. destruct (is_sel a) eqn:E.
  - destruct a; try discriminate E. cbn [toks]. discriminate.
  - bools. apply toks_nonnil. auto.
Qed.
Lemma ex_bl : forall n ss, wf Ex n = true -> spelling (toks n) ss -> bl false (KS n) ss.
Proof. intros n ss H S. apply (proj1 (bl_all n)); auto. Qed.
Lemma ex_bl4 : forall n ss, wf Ex n = true -> lvl n <= 4 -> spelling (toks n) ss -> bl false STOPS ss.
Proof. intros n ss H L S. rewrite <- (KS_4 n L). apply ex_bl; auto. Qed.
Lemma arg_bl : forall a ss, argok a = true -> spelling (toks a) ss -> bl true [","] ss.
Proof.
  intros a ss H S. unfold argok in H. destruct (is_sel a) eqn:E; bools.
  - apply (proj2 (proj2 (bl_all a)) H [","]); auto. right. left. auto.
  - eapply bl_weak; [apply (ex_bl a); auto|auto|]. intros x [<-|[]].
    assert (X : incl (minus STOPS ["except"; "as"; "from"]) (KS a)).
    { assert (L := H0). destruct (le_lt_dec (lvl a) 7).
      - eapply incl_tran; [|apply KS_7; auto]. inc.
      - destruct a; try (cbn in L, l; lia); try (destruct a; cbn in L, l; lia). inc. }
    apply X. apply mem_In. reflexivity.
Qed.
Lemma args_bl : forall l ss, forallb argok l = true -> spelling (commas (map toks l)) ss -> bl true [] ss.
Proof.
  intros l ss H S. revert ss S. apply blt_commas; [auto|]. rewrite forallb_forall in H. apply Forall_map, Forall_forall.
  intros a A ss S. eapply bl_weak; [apply (arg_bl a); auto|auto|intros ? []].
Qed.
(** argument lists *)
Lemma args_ok : forall l ss, Forall spec l -> forallb argok l = true -> spelling (commas (map toks l)) ss -> exprlist PI false ss = Ok l.
Proof.
  intros l ss SP. revert ss. induction SP as [|a l A B IH]; intros ss H S; [cbn in S; sp; auto|].
  cbn [forallb] in H. bools. 
  assert (I : forall u, spelling (toks a) u -> item PI false u = Ok a) by (intros u U; unfold item; rewrite (s_arg a A) by auto; auto).
  destruct l as [|b l]; cbn [map commas] in S.
  - apply (exprlist_one PI false true [","] ss a); [apply (arg_bl a); auto|eapply arg_nonnil; eauto|left; auto|auto].
  - sp. apply (exprlist_more PI false true [","]); [apply (arg_bl a); auto|eapply arg_nonnil; eauto|left; auto|auto|]. apply IH; auto.
Qed.

(** ** First tokens of expressions *)
Definition FIRST0 : list str := ["*"; "cast"; "count"; "array_agg"; "'"; """"; "`"; "-"; "null"; "true"; "false"; "("; "["; "case"] ++ PARTS.
Definition OKF (L : list str) (t : str) : Prop :=
  ident t = true \/ (forallb numc t = true /\ t <> []) \/ In (lower t) L.
Lemma okf_weak : forall L L' t, OKF L t -> incl L L' -> OKF L' t.
Proof. intros L L' t [H|[H|H]] I; [left|right; left|right; right]; auto. Qed.
Lemma okf_not : forall L X t, OKF L t -> forallb (fun x => unword x && negb (forallb numc x) && negb (mem x L)) X = true ->
  ~ In (lower t) X.
Proof.
  intros L X t H C I. rewrite forallb_forall in C.
  destruct H as [H|[[H N]|H]].
  - revert I. apply ident_not; auto. apply forallb_forall. intros x I. apply C in I. bools. auto.
  - apply C in I. rewrite num_lower, H in I by auto. rewrite andb_false_r in I. discriminate.
  - apply C in I. bools. auto.
Qed.
Lemma okf_nonnil : forall L t, OKF L t -> mem [] L = false -> t <> [].
Proof. intros L t [H|[[H N]|H]] M; [intros ->; discriminate H|auto|]. intros ->. apply mem_false in M. auto. Qed.
Lemma app_first : forall a b t s, spelling (a ++ b) (t :: s) -> a <> [] -> exists s', spelling a (t :: s').
Proof.
  intros a b t s H N. apply spelling_app in H as (p & q & E & A & B). destruct p as [|x p]; [inversion A; congruence|].
  injection E as <- _. eauto.
Qed.
Lemma first_in : forall n t s, wf Ex n = true -> spelling (toks n) (t :: s) ->
  OKF ("not" :: FIRST0) t /\ (lvl n <= 2 -> is_neg n = false -> OKF FIRST0 t).
Proof.
  assert (M : forall t (x y : Prop), OKF FIRST0 t -> OKF ("not" :: FIRST0) t /\ (x -> y -> OKF FIRST0 t)).
  { intros t x y H. split; auto. eapply okf_weak; eauto. intros z; right; auto. }
  assert (K : forall t k, lower t = k -> mem k FIRST0 = true -> OKF FIRST0 t) by (intros t k E H; right; right; rewrite E; apply mem_In; auto).
  intros n. induction n as [n IH] using node_ind'. intros t s H S.
  assert (A : forall e b, In e (children n) -> wf Ex e = true -> spelling (toks e ++ b) (t :: s) ->
    OKF ("not" :: FIRST0) t /\ (lvl e <= 2 -> is_neg e = false -> OKF FIRST0 t)).
  { intros e b I W X. apply app_first in X as (s' & X); [eapply IH; eauto|apply toks_nonnil; auto]. }
  assert (B : forall e b, In e (children n) -> wf Ex e = true -> spelling (toks e ++ b) (t :: s) -> lvl e <= 1 \/ is_index e = true -> OKF FIRST0 t).
  { intros e b I W X L. apply (A e b) in X as [_ X]; auto. apply X; destruct L as [L|L]; destruct e; cbn in L |- *; try lia; try discriminate; auto. destruct e; lia. }
  destruct n; try discriminate H.
  - rewrite wf_fun in H. bools. cbn [toks] in S. apply spelling_id in S as (? & E & _). injection E as -> _. apply M. left. auto.
  - cbn [toks] in S. apply spelling_kw in S as (? & ? & E & L & _). injection E as -> _. apply M. eapply K; eauto.
  - cbn [toks] in S. apply spelling_kw in S as (? & ? & E & L & _). injection E as -> _. apply M. eapply K; eauto.
  - cbn [toks] in S. apply spelling_kw in S as (? & ? & E & L & _). injection E as -> _. apply M. eapply K; eauto.
  - rewrite wf_filtered in H. bools. cbn [toks] in S. apply M. eapply B; [left; reflexivity|auto|exact S|]. destruct n1; try discriminate H; cbn; lia.
  - rewrite wf_analytics in H. bools. cbn [toks] in S. apply M. eapply B; [left; reflexivity|auto|exact S|]. lia.
  - cbn [toks] in S. apply spelling_id in S as (? & E & _). injection E as -> _. apply M. cbn in H. apply orb_true_iff in H as [H|H]; bools; [left; auto|].
    subst. eapply K; reflexivity.
  - rewrite wf_chained in H. bools. cbn [toks] in S. apply M. eapply B; [left; reflexivity|auto|exact S|]. lia.
  - rewrite wf_datepart in H. bools. cbn [toks] in S. apply spelling_id in S as (? & E & _). injection E as -> _. apply M. right. right.
    apply in_or_app. right. auto.
  - cbn [toks] in S. apply spelling_id in S as (? & E & _). injection E as -> _. apply M. cbn [wf] in H. destruct prefix; [discriminate|]. bools.
    destruct H as [<-|[<-|[<-|[]]]]; eapply K; reflexivity.
  - cbn [toks] in S. destruct (Z.ltb_spec z 0); [apply spelling_id in S as (? & E & _)|apply spelling_num in S as (? & ? & E & D & _)]; injection E as -> _; apply M; [eapply K; reflexivity|].
    right. left. split; [apply digit_num; auto|]. intros Z. rewrite Z in D. discriminate.
  - destruct text as [|c text]; [discriminate H|]. cbn [wf] in H. cbn [toks] in S. destruct (N.eqb_spec c 45) as [->|N].
    + apply spelling_id in S as (? & E & _). injection E as -> _. apply M. eapply K; reflexivity.
    + assert (T : forall A (a b : A), match c with 45%N => a | _ => b end = b).
      { intros. destruct c as [|c]; auto. repeat (destruct c as [c|c|]; auto). congruence. }
      rewrite T in H, S. apply spelling_id in S as (? & E & _). injection E as -> _. apply M. right. left. split; [apply float_num; auto|discriminate].
  - cbn [toks] in S. apply spelling_kw in S as (? & ? & E & L & _). injection E as -> _. apply M. eapply K; eauto.
  - cbn [toks] in S. apply spelling_kw in S as (? & ? & E & L & _). injection E as -> _. apply M. eapply K; eauto. destruct b; reflexivity.
  - cbn [toks] in S. apply spelling_id in S as (? & E & _). injection E as -> _. apply M. eapply K; reflexivity.
  - cbn [toks] in S. apply spelling_id in S as (? & E & _). injection E as -> _. apply M. eapply K; reflexivity.
  - rewrite wf_alias in H. bools. cbn [toks] in S. apply A in S; [|left; auto|auto]. split; [tauto|]. cbn; lia.
  - rewrite wf_index in H. bools. cbn [toks] in S. apply M. eapply B; [left; reflexivity|auto|exact S|].
    apply orb_true_iff in H1 as [H1|H1]; bools; [left; lia|auto].
  - rewrite wf_arith in H. bools. cbn [toks] in S. apply M. eapply B; [left; reflexivity|auto|exact S|]. lia.
  - rewrite wf_bitwise in H. bools. cbn [toks] in S. apply A in S; [|left; auto|auto]. split; [tauto|]. cbn; lia.
  - rewrite wf_cond in H. bools. cbn [toks] in S.
    destruct (str_eqb (lower pred) "between"); apply A in S; try (left; reflexivity); auto; split; try tauto; cbn; lia.
  - rewrite wf_boolc in H. bools. cbn [toks] in S. apply A in S; [|left; auto|auto]. split; [tauto|]. cbn; lia.
  - cbn [toks] in S. apply spelling_kw in S as (? & ? & E & L & _). injection E as -> _. split; [right; right; rewrite L; left; auto|discriminate].
  - rewrite wf_except in H. bools. cbn [toks] in S. apply A in S; [|left; auto|auto]. split; [tauto|]. cbn; lia.
  - rewrite wf_replace in H. bools. cbn [toks] in S. apply A in S; [|left; auto|auto]. split; [tauto|]. cbn; lia.
  - cbn [toks] in S. apply spelling_kw in S as (? & ? & E & L & _). injection E as -> _. apply M. eapply K; eauto.
Qed.
Lemma first_arg : forall a t s, argok a = true -> spelling (toks a) (t :: s) -> OKF ("select" :: "not" :: FIRST0) t.
Proof.
  intros a t s H S. unfold argok in H. destruct (is_sel a) eqn:E; bools.
  - destruct a; try discriminate E. cbn [toks] in S. apply spelling_kw in S as (? & ? & E' & L & _). injection E' as -> _.
    right. right. rewrite L. left; auto.
  - destruct (first_in a t s) as [X _]; auto. eapply okf_weak; [exact X|]. intros x; right; auto.
Qed.
Lemma first_opt : forall a b c U d t ts, t <> [] ->
  p_expr PI None (mk_eopts a b c U (Some t) d) ts = p_expr PI None (mk_eopts a b c U None d) (t :: ts).
Proof. intros a b c U d [|x t] ts H; [congruence|]. rewrite !PI_expr by apply eok_none. reflexivity. Qed.
