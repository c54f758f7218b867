(** The tokens of the trees of the grammar fragment are bracketed lists. *)
From Verif Require Import PyStr Lib Digits AstLib PyFloat Tokeniser Ast Grammar Scan.
Local Open Scope str_scope.
Local Open Scope list_scope.

(** ** Membership, one equation per form *)
Definition argok (a : node) : bool :=
  if is_sel a then wf St a && one_column a else wf Ex a && (lvl a <=? 8).
Definition itemok (i : node) : bool :=
  match i with NOrderItem e a d => wf Ex e && (lvl e <=? 3) && negb (a && d) | _ => false end.
Definition itemsok (l : list node) : bool := nonnil l && forallb itemok l.
Definition alsok (a : str + node) : bool := match a with inl t => ident t | inr x => is_str x && wf Ex x end.
Definition upto (k : nat) (e : node) : bool := wf Ex e && (lvl e <=? k).
Definition frameok (f : str * str) : bool :=
  mem (lower (fst f)) ["rows"; "range"]
  && forallb (fun w => word w && negb (mem (lower w) ["case"; "end"; "with"; "timestamp_trunc"])) (split 32 (snd f)).
Definition wtok (wt : node * node) : bool :=
  wf Ex (fst wt) && (lvl (fst wt) <=? 4) && clausable (fst wt) && wf Ex (snd wt) && (lvl (snd wt) <=? 3).
Definition wqok (q : str * node) : bool := ident (fst q) && is_sel (snd q) && wf St (snd q).
Lemma wf_fun : forall name l, wf Ex (NFun name l) =
  ident name && negb (mem (lower name) ["cast"; "array_agg"; "count"]) && forallb argok l.
Proof. reflexivity. Qed.
Lemma wf_paren : forall l, wf Ex (NParen l) = forallb argok l.
Proof. reflexivity. Qed.
Lemma wf_array : forall l, wf Ex (NArray l) = forallb argok l.
Proof. reflexivity. Qed.
Lemma wf_cast : forall e ty, wf Ex (NCast e ty) = upto 2 e && ident ty.
Proof. reflexivity. Qed.
Lemma wf_count : forall l d, wf Ex (NCount l d) = nonnil l && forallb argok l.
Proof. reflexivity. Qed.
Lemma wf_arrayagg : forall e d i resp order limit, wf Ex (NArrayAgg e d i resp order limit) =
  upto 4 e && negb resp && oall itemsok order && oall (fun z => (0 <? z)%Z) limit.
Proof. reflexivity. Qed.
Lemma wf_filtered : forall f e, wf Ex (NFiltered f e) = is_call f && wf Ex f && wf Ex e && (lvl e <=? 4).
Proof. reflexivity. Qed.
Lemma wf_analytics : forall f p o fr, wf Ex (NAnalytics f p o fr) =
  wf Ex f && (lvl f <=? 0) && negb (is_over f) && oall (fun l => nonnil l && forallb (upto 4) l) p && oall itemsok o && oall frameok fr.
Proof. reflexivity. Qed.
Lemma wf_chained : forall l r, wf Ex (NChained l r) =
  wf Ex l && wf Ex r && (lvl l <=? 0) && negb (is_number l) && negb (is_star l)
      && ((lvl r <=? 1) || is_index r) && negb (is_number (lead r)).
Proof. reflexivity. Qed.
Lemma wf_index : forall e l, wf Ex (NIndex e l) = wf Ex e && ((lvl e <=? 0) || is_index e) && forallb argok l.
Proof. reflexivity. Qed.
Lemma wf_arith : forall op l r, wf Ex (NArith op l r) = mem op ["+"; "-"; "*"; "/"] && wf Ex l && (lvl l <=? 1) && wf Ex r && (lvl r <=? 2).
Proof. reflexivity. Qed.
Lemma wf_neg : forall e, wf Ex (NNeg e) = upto 2 e.
Proof. reflexivity. Qed.
Definition COMPARE : list str := ["="; ">"; "<"; "<="; ">="; "!="; "<>"; "is not"; "not in"].
Lemma wf_cond : forall e p r, wf Ex (NCond e p r) =
  wf Ex e && (lvl e <=? 2)
  && (if str_eqb (lower p) "between" then
        match r with
        | NBoolC ty a b => str_eqb ty "and" && wf Ex a && (lvl a <=? 2) && paren1 a && wf Ex b && (lvl b <=? 2) && paren1 b
        | _ => false end
      else (mem p COMPARE || mem (lower p) ["is"; "like"; "in"; "contains"])
           && wf Ex r && (lvl r <=? 2) && negb (str_eqb (lower p) "is" && is_neg r)).
Proof. intros e p r. destruct r; reflexivity. Qed.
Lemma wf_bitwise : forall e op r, wf Ex (NBitwise e op r) = mem op BITWISE_OPERATORS && wf Ex e && (lvl e <=? 2) && wf Ex r && (lvl r <=? 2).
Proof. reflexivity. Qed.
Lemma wf_boolc : forall ty l r, wf Ex (NBoolC ty l r) =
  mem (lower ty) BOOL_PREDICATES && wf Ex l && (lvl l <=? 3) && paren1 l && wf Ex r && (lvl r <=? 4) && paren1 r.
Proof. reflexivity. Qed.
Lemma wf_except : forall e l, wf Ex (NExcept e l) = wf Ex e && (lvl e <=? 3) && nonnil l && forallb argok l.
Proof. reflexivity. Qed.
Definition as_alias (a : node) : bool := match a with NAlias _ _ true => true | _ => false end.
Lemma wf_replace : forall e l, wf Ex (NReplace e l) = wf Ex e && ((lvl e <=? 3) || Nat.eqb (lvl e) 5) && nonnil l && forallb argok l && forallb as_alias l.
Proof. reflexivity. Qed.
Definition aliasok (e : node) (a : str + node) (w : bool) : bool :=
  match w, a with
  | true, inr x => (is_column x && negb (is_star x) || is_str x) && wf Ex x
  | false, inl t => ident t
  | false, inr x => is_str x && wf Ex x && negb (is_str (last_op e))
  | true, inl _ => false
  end.
Lemma wf_alias : forall e a w, wf Ex (NAlias e a w) = wf Ex e && (lvl e <=? 6) && aliasok e a w.
Proof. reflexivity. Qed.
Lemma wf_datepart : forall p e, wf Ex (NDatePart p e) = mem (lower p) PARTS && wf Ex e && (lvl e <=? 4).
Proof. reflexivity. Qed.
Lemma wf_case : forall e ws els, wf Ex (NCase e ws els) =
  oall (fun x => wf Ex x && (lvl x <=? 4) && negb (starts_with ["case"] (toks x))) e
  && nonnil ws && forallb wtok ws && oall (upto 4) els.
Proof. reflexivity. Qed.

Lemma upto_and : forall k e, upto k e = true <-> wf Ex e = true /\ lvl e <= k.
Proof. intros. unfold upto. rewrite andb_true_iff, Nat.leb_le. tauto. Qed.
Ltac bools := repeat match goal with
  | H : _ && _ = true |- _ => apply andb_true_iff in H; destruct H
  | H : (_ <=? _) = true |- _ => apply Nat.leb_le in H
  | H : negb _ = true |- _ => apply negb_true_iff in H
  | H : mem _ _ = true |- _ => apply mem_In in H
  | H : mem _ _ = false |- _ => apply mem_false in H
  | H : upto _ _ = true |- _ => apply upto_and in H; destruct H
  | H : str_eqb _ _ = true |- _ => apply str_eqb_eq in H
  end.
Lemma wf_lvl : forall n, wf Ex n = true -> lvl n <= 8.
Proof. intros n H. destruct n; cbn; try lia; try discriminate H. destruct n; lia. Qed.

(** ** Spellings *)
Lemma spelling_app : forall a b ss, spelling (a ++ b) ss -> exists s1 s2, ss = s1 ++ s2 /\ spelling a s1 /\ spelling b s2.
Proof. intros a b ss H. apply Forall2_app_inv_l in H as (s1 & s2 & A & B & ->). eauto. Qed.
Lemma spelling_kw : forall k a ss, spelling (Kw k :: a) ss -> exists t s, ss = t :: s /\ lower t = k /\ spelling a s.
Proof. intros k a ss H. inversion H; subst. eauto. Qed.
Lemma spelling_id : forall i a ss, spelling (Id i :: a) ss -> exists s, ss = i :: s /\ spelling a s.
Proof. intros i a ss H. inversion H; subst. cbn in H2. subst. eauto. Qed.
Lemma spelling_num : forall z a ss, spelling (Num z :: a) ss -> exists t s, ss = t :: s /\ isdigit t = true /\ value t = z /\ spelling a s.
Proof. intros z a ss H. inversion H; subst. destruct H2. eauto 6. Qed.
Lemma spelling_nil : forall ss, spelling [] ss -> ss = [].
Proof. intros ss H. inversion H. auto. Qed.
Ltac sp := repeat match goal with
  | H : spelling [] _ |- _ => apply spelling_nil in H; subst
  | H : spelling (Id _ :: _) _ |- _ => apply spelling_id in H as (? & -> & H)
  | H : spelling (Kw _ :: _) _ |- _ => apply spelling_kw in H as (? & ? & -> & ? & H)
  | H : spelling (Num _ :: _) _ |- _ => apply spelling_num in H as (? & ? & -> & ? & ? & H)
  | H : spelling (_ ++ _) _ |- _ => apply spelling_app in H as (? & ? & -> & ? & H)
  | H : spelling (parens _) _ |- _ => unfold parens in H
  | H : spelling (brackets _) _ |- _ => unfold brackets in H
  end.

(** every spelling is a bracketed list *)
Definition blt (w : bool) (K : list str) (ts : list tok) : Prop := forall ss, spelling ts ss -> bl w K ss.
Definition okw (K : list str) (k : str) : bool :=
  existsb is_lower_c k && negb (mem k ["case"; "end"; "with"; "timestamp_trunc"]) && negb (mem k K).
Definition oki (K : list str) (i : str) : bool :=
  negb (mem i MARKS) && negb (mem (lower i) ["case"; "end"; "with"; "timestamp_trunc"]) && negb (mem (lower i) K).
Lemma blt_nil : forall w K, blt w K [].
Proof. intros w K ss H. sp. apply bl_nil. Qed.
Lemma blt_app : forall w K a b, blt w K a -> blt w K b -> blt w K (a ++ b).
Proof. intros w K a b A B ss H. sp. apply bl_app; auto. Qed.
Lemma blt_kw : forall w K k a, okw K k = true -> blt w K a -> blt w K (Kw k :: a).
Proof.
  intros w K k a H A ss S. sp. unfold okw in H. bools. apply bl_tok; auto.
  - split; [eapply word_plain; eauto|]. rewrite H0. auto.
  - rewrite H0. auto.
Qed.
Lemma blt_id : forall w K i a, oki K i = true -> blt w K a -> blt w K (Id i :: a).
Proof. intros w K k a H A ss S. sp. unfold oki in H. bools. apply bl_tok; auto. split; auto. Qed.
Lemma blt_parens : forall w K a, blt true [] a -> blt w K (parens a).
Proof. intros w K a A ss S. sp. apply bl_par; auto. apply bl_nil. Qed.
Lemma blt_brackets : forall w K a, blt true [] a -> blt w K (brackets a).
Proof. intros w K a A ss S. sp. apply bl_sq; auto. apply bl_nil. Qed.
Lemma blt_weak : forall w K a w' K', blt w K a -> (w = true -> w' = true) -> incl K' K -> blt w' K' a.
Proof. intros w K a w' K' A B C ss S. eapply bl_weak; eauto. Qed.
Lemma blt_in : forall w K a, blt w K a -> blt true [] a.
Proof. intros w K a A. eapply blt_weak; eauto. intros x []. Qed.
Lemma blt_commas : forall w K l, ~ In "," K -> Forall (blt w K) l -> blt w K (commas l).
Proof.
  intros w K l C H. induction H as [|x l A B IH]; [apply blt_nil|]. destruct l as [|y l]; cbn [commas]; auto.
  apply blt_app; auto. apply blt_id; auto. unfold oki. cbn.
  apply negb_true_iff, mem_false. auto.
Qed.
Lemma blt_commas1 : forall w K l, length l <= 1 -> Forall (blt w K) l -> blt w K (commas l).
Proof. intros w K l L H. destruct H as [|x l A B]; [apply blt_nil|]. destruct l; [auto|cbn in L; lia]. Qed.

(** ** Words and numbers *)
Definition numc (c : N) : bool := is_digit_c c || N.eqb c 46.
Lemma num_lower : forall v, forallb numc v = true -> lower v = v.
Proof.
  induction v as [|c v IH]; intros H; auto. cbn [forallb] in H. bools. change (lower_c c :: lower v = c :: v).
  rewrite IH by auto. f_equal.
  unfold numc, is_digit_c, lower_c, is_upper_c in *. destruct ((65 <=? c) && (c <=? 90))%N eqn:E; auto.
  bools. rewrite orb_true_iff, andb_true_iff, !N.leb_le, N.eqb_eq in *. lia.
Qed.
Lemma num_oki : forall K v, forallb (fun x => negb (forallb numc x)) K = true -> forallb numc v = true -> oki K v = true.
Proof.
  intros K v C H. unfold oki. rewrite (num_lower v H).
  assert (X : forall L, forallb (fun x => negb (forallb numc x)) L = true -> mem v L = false).
  { intros L A. apply mem_false. intros I. rewrite forallb_forall in A. apply A in I. rewrite H in I. discriminate. }
  rewrite !X by (auto; reflexivity). auto.
Qed.
Lemma digit_num : forall v, isdigit v = true -> forallb numc v = true.
Proof.
  intros v H. assert (X : forallb is_digit_c v = true) by (destruct v; auto). rewrite forallb_forall in *.
  intros c C. unfold numc. rewrite X; auto.
Qed.
Lemma float_num : forall t, float_ok t = true -> forallb numc t = true.
Proof. intros t H. unfold float_ok in H. bools. auto. Qed.
Lemma word_not : forall v x, word v = true -> existsb is_lower_c x = false -> lower x = x -> word x = false -> lower v <> x.
Proof. intros v x W A B C E. apply lower_sign in E; auto. congruence. Qed.
Definition unword (x : str) : bool :=
  mem x RESERVED || negb (existsb is_lower_c x) && str_eqb (lower x) x && negb (word x).
Lemma ident_not : forall L v, forallb unword L = true -> ident v = true -> ~ In (lower v) L.
Proof.
  intros L v C H X. rewrite forallb_forall in C. apply C in X. unfold ident in H. bools.
  unfold unword in X. apply orb_true_iff in X as [X|X]; bools; [auto|]. eapply word_not; eauto.
Qed.
Lemma ident_marks : forall v, ident v = true -> ~ In v MARKS.
Proof.
  intros v H X. unfold ident in H. bools. cbn in X. repeat (destruct X as [<-|X]; [discriminate H|]); auto.
Qed.
Lemma ident_oki : forall v, ident v = true -> oki STOPS v = true.
Proof.
  intros v H. unfold oki. rewrite !andb_true_iff, !negb_true_iff, !mem_false.
  repeat split; [apply ident_marks; auto| |]; apply ident_not; auto; reflexivity.
Qed.
Lemma oki_weak : forall K K' v, incl K' K -> oki K v = true -> oki K' v = true.
Proof.
  intros K K' v I H. unfold oki in *. rewrite !andb_true_iff, !negb_true_iff, !mem_false in *. intuition.
Qed.

(** ** Expressions *)
Definition KSb (n : node) : list str :=
  if lvl n <=? 4 then STOPS else if lvl n <=? 6 then minus STOPS ["except"] else minus STOPS ["from"].
Definition KS (n : node) : list str := match n with NAlias e _ _ => minus (KSb e) ["as"] | _ => KSb n end.
Definition FK : list str := ["where"; "group"; "having"; "order"; "limit"; "offset"; ";"].
Definition OU : list str := ["on"; "using"].
Definition allowF (K : list str) (n : node) : Prop :=
  K = [] \/ K = FK \/ (K = OU /\ flvl n <= 1) \/ (K = [","] /\ one_column n = true) \/ (K = SET_OPERATORS /\ no_set n = true).
Definition allowS (K : list str) (n : node) : Prop :=
  K = [] \/ (K = [","] /\ one_column n = true /\ is_sel n = true)
  \/ (bare_select n = true /\ (K = FK \/ (K = SET_OPERATORS /\ no_set n = true))).

Lemma KSb_4 : forall n, lvl n <= 4 -> KSb n = STOPS.
Proof. intros n H. unfold KSb. replace (lvl n <=? 4) with true; auto. symmetry. apply Nat.leb_le. auto. Qed.
Lemma KS_4 : forall n, lvl n <= 4 -> KS n = STOPS.
Proof. intros n H. unfold KS. destruct n; try (apply KSb_4; auto). cbn in H. lia. Qed.
Lemma KS_6 : forall n, lvl n <= 6 -> incl (minus STOPS ["except"]) (KS n).
Proof.
  intros n H. destruct (le_lt_dec (lvl n) 4).
  - rewrite KS_4 by auto. intros x X. apply minus_In in X. tauto.
  - unfold KS. destruct n; try (cbn in H; lia); unfold KSb; replace (lvl _ <=? 4) with false by (symmetry; apply Nat.leb_gt; auto);
    replace (lvl _ <=? 6) with true by (symmetry; apply Nat.leb_le; auto); intros x X; auto.
Qed.
Lemma KSb_KS : forall e, lvl e <= 6 -> KSb e = KS e.
Proof.
  intros e H. unfold KS. destruct e; cbv iota; lazymatch goal with |- KSb (NAlias _ _ _) = _ => cbn in H; lia | _ => reflexivity end.
Qed.
Lemma minus_incl : forall K L, incl (minus K L) K.
Proof. intros K L x X. apply minus_In in X. tauto. Qed.
Lemma minus_mono : forall K K' L, incl K K' -> incl (minus K L) (minus K' L).
Proof. intros K K' L H x X. apply minus_In in X. apply minus_In. intuition. Qed.
Lemma KSb_STOPS : forall n, incl (KSb n) STOPS.
Proof. intros n. unfold KSb. destruct (lvl n <=? 4); [intros x; auto|]. destruct (lvl n <=? 6); apply minus_incl. Qed.
Lemma KS_STOPS : forall n, incl (KS n) STOPS.
Proof. intros n. unfold KS. destruct n; try apply KSb_STOPS. intros x X. apply minus_In in X as [X _]. eapply KSb_STOPS; eauto. Qed.
(** decided inclusion *)
Definition inclb (K L : list str) : bool := forallb (fun x => mem x L) K.
Lemma inclb_ok : forall K L, inclb K L = true -> incl K L.
Proof. intros K L H x X. unfold inclb in H. rewrite forallb_forall in H. apply mem_In. auto. Qed.

Lemma blt_string : forall w K v q, incl K STOPS -> In q QUOTES -> content v = true ->
  blt w K (Id q :: match v with [] => [] | _ => [Id v] end ++ [Id q]).
Proof.
  intros w K v q I Q C ss S. destruct v as [|c v]; sp; cbn [app].
  - apply (bl_str w K q [] []); auto. apply bl_nil.
  - apply (bl_str w K q [c :: v] []); auto; [|apply bl_nil]. right. exists (c :: v). split; auto.
    unfold content in C. bools.
    assert (X : forall L, inclb L (STOPS ++ ["("; ")"; "["; "]"; "case"; "end"; "with"; "timestamp_trunc"]) = true -> ~ In (lower (c :: v)) L).
    { intros L A B. apply inclb_ok in A. auto. }
    split; [split|].
    + intros M. assert (M' : In (c :: v) (["("; ")"; "["; "]"] ++ QUOTES)) by (revert M; apply inclb_ok; reflexivity).
      apply in_app_iff in M' as [M'|M'].
      * apply (X ["("; ")"; "["; "]"]); [reflexivity|]. replace (lower (c :: v)) with (c :: v); auto.
        destruct M' as [<-|[<-|[<-|[<-|[]]]]]; auto.
      * destruct M' as [M'|[M'|[M'|[]]]]; rewrite <- M' in H; discriminate H.
    + apply X. reflexivity.
    + intros M. apply I in M. revert M. apply X. reflexivity.
Qed.
Lemma blt_case : forall w K a, blt w (minus K WTE) a -> blt w K (Kw "case" :: a ++ [Kw "end"]).
Proof. intros w K a A ss S. sp. apply bl_case; auto. apply bl_nil. Qed.
Lemma blt_ident : forall w K v a, incl K STOPS -> ident v = true -> blt w K a -> blt w K (Id v :: a).
Proof. intros w K v a I H A. apply blt_id; auto. eapply oki_weak; [eauto|]. apply ident_oki. auto. Qed.
Lemma blt_num : forall w K v a, incl K STOPS -> forallb numc v = true -> blt w K a -> blt w K (Id v :: a).
Proof. intros w K v a I H A. apply blt_id; auto. eapply oki_weak; [eauto|]. apply num_oki; auto. Qed.
Lemma blt_digits : forall w K z a, incl K STOPS -> blt w K a -> blt w K (Num z :: a).
Proof.
  intros w K z a I A ss S. sp. apply (blt_num w K x a I (digit_num _ H) A). constructor; [reflexivity|exact S].
Qed.
Lemma blt_oki : forall w K v a L, In v L -> forallb (oki STOPS) L = true -> incl K STOPS -> blt w K a -> blt w K (Id v :: a).
Proof.
  intros w K v a L H F I A. apply blt_id; auto. eapply oki_weak; [eauto|]. rewrite forallb_forall in F. auto.
Qed.
Lemma blt_okl : forall w K v a L, In (lower v) L -> forallb (fun k => existsb is_lower_c k && negb (mem k STOPS)
    && negb (mem k ["case"; "end"; "with"; "timestamp_trunc"])) L = true -> incl K STOPS -> blt w K a -> blt w K (Id v :: a).
Proof.
  intros w K v a L H F I A. apply blt_id; auto. eapply oki_weak; [eauto|]. rewrite forallb_forall in F. apply F in H. bools.
  unfold oki. rewrite !andb_true_iff, !negb_true_iff, !mem_false. repeat split; auto.
  eapply word_plain; eauto.
Qed.
Lemma okw_weak : forall K K' k, incl K' K -> okw K k = true -> okw K' k = true.
Proof.
  intros K K' v I H. unfold okw in *. rewrite !andb_true_iff, !negb_true_iff, !mem_false in *. intuition.
Qed.
Lemma blt_kwS : forall w K k a, okw STOPS k = true -> incl K STOPS -> blt w K a -> blt w K (Kw k :: a).
Proof. intros. apply blt_kw; auto. eapply okw_weak; eauto. Qed.

Section Args.
Variable n : node.
Hypothesis IH : forall m, size m < size n ->
  (wf Ex m = true -> blt false (KS m) (toks m))
  /\ (wf Fr m = true -> forall K, allowF K m -> blt true K (toks m))
  /\ (wf St m = true -> forall K, allowS K m -> blt true K (toks m)).
Lemma bt_arg : forall a, In a (children n) -> argok a = true -> blt true [] (toks a).
Proof.
  intros a I H. apply children_size, IH in I as (A & _ & B). unfold argok in H. destruct (is_sel a); bools.
  - apply B; auto. left. auto.
  - eapply blt_in. auto.
Qed.
Lemma bt_args : forall l, incl l (children n) -> forallb argok l = true -> blt true [] (commas (map toks l)).
Proof.
  intros l I H. apply blt_commas; [auto|]. rewrite forallb_forall in H. apply Forall_map, Forall_forall. intros a A. apply bt_arg; auto.
Qed.
Lemma bt_ex : forall a, In a (children n) -> wf Ex a = true -> blt false (KS a) (toks a).
Proof. intros a I H. apply children_size, IH in I as (A & _ & B). auto. Qed.
Lemma bt_up : forall k a, k <= 4 -> In a (children n) -> upto k a = true -> blt false STOPS (toks a).
Proof. intros k a L I H. bools. rewrite <- (KS_4 a) by lia. apply bt_ex; auto. Qed.
Lemma bt_ups : forall k l, k <= 4 -> incl l (children n) -> forallb (upto k) l = true -> Forall (blt false STOPS) (map toks l).
Proof.
  intros k l L I H. rewrite forallb_forall in H. apply Forall_map, Forall_forall. intros a A. eapply bt_up; eauto.
Qed.
Lemma bt_4 : forall a, In a (children n) -> wf Ex a = true -> lvl a <= 4 -> blt false STOPS (toks a).
Proof. intros a I H L. rewrite <- (KS_4 a) by lia. apply bt_ex; auto. Qed.
Lemma bt_item : forall i, In i (children n) -> itemok i = true -> blt false (minus STOPS ["asc"; "desc"]) (toks i).
Proof.
  intros i I H. destruct i; try discriminate H. cbn [itemok] in H. bools. cbn [toks].
  assert (A : blt false STOPS (toks i)).
  { rewrite <- (KS_4 i) by lia. apply IH; auto. apply children_size in I. cbn in I. lia. }
  apply blt_app; [eapply blt_weak; [exact A|auto|apply minus_incl]|].
  destruct asc; [|destruct desc]; try (apply blt_kw; [reflexivity|]); apply blt_nil.
Qed.
Lemma bt_items : forall l, incl l (children n) -> itemsok l = true -> Forall (blt false (minus STOPS ["asc"; "desc"])) (map toks l).
Proof.
  intros l I H. unfold itemsok in H. bools. rewrite forallb_forall in *. apply Forall_map, Forall_forall. intros a A. apply bt_item; auto.
Qed.
End Args.
Lemma Forall_weak : forall w K w' K' (l : list (list tok)), Forall (blt w K) l -> (w = true -> w' = true) -> incl K' K -> Forall (blt w' K') l.
Proof. intros w K w' K' l H W I. eapply Forall_impl; [|exact H]. intros a A. eapply blt_weak; eauto. Qed.
Lemma blt_commas_in : forall w K l, Forall (blt w K) l -> blt true [] (commas l).
Proof. intros w K l H. apply blt_commas; [auto|]. eapply Forall_weak; eauto. intros x []. Qed.

Ltac inc := apply inclb_ok; reflexivity.
Ltac chi := first [left; reflexivity | assumption | right; chi | apply in_or_app; first [left; chi | right; chi]].
Ltac child := cbn [children olist ollist]; chi.
Ltac b4 IH := apply (bt_4 _ IH); [child|assumption|lia].
Lemma bt_alias : forall n e a w, (forall m, size m < size n ->
  (wf Ex m = true -> blt false (KS m) (toks m))
  /\ (wf Fr m = true -> forall K, allowF K m -> blt true K (toks m))
  /\ (wf St m = true -> forall K, allowS K m -> blt true K (toks m))) ->
  n = NAlias e a w -> wf Ex n = true -> blt false (KS n) (toks n).
Proof.
  intros n e a w IH -> H. rewrite wf_alias in H. bools. cbn [KS toks].
  assert (S : incl (minus (KSb e) ["as"]) STOPS) by (intros x X; apply minus_In in X as [X _]; eapply KSb_STOPS; eauto).
  assert (KE : KSb e = KS e) by (apply KSb_KS; auto).
  apply blt_app; [|apply blt_app].
  - eapply blt_weak; [apply (bt_ex (NAlias e a w) IH e)|auto|]; [left; auto|auto|]. rewrite KE. apply minus_incl.
  - destruct w; [|apply blt_nil]. apply blt_kw; [|apply blt_nil]. unfold okw. cbn [existsb]. rewrite !andb_true_iff. repeat split.
    apply negb_true_iff, mem_false. intros X. apply minus_In in X as [_ X]. apply X. left. auto.
  - destruct a as [t|x].
    + assert (ident t = true) by (destruct w; cbn in H0; auto; discriminate). apply blt_ident; auto. apply blt_nil.
    + assert (W : wf Ex x = true /\ lvl x <= 4).
      { unfold aliasok in H0. destruct w; bools; split; auto; destruct x; cbn in *; try discriminate; lia. }
      destruct W as [W L]. eapply blt_weak; [apply (bt_4 (NAlias e (inr x) w) IH x)|auto|exact S]; auto. right; left; auto.
Qed.
Lemma bt_cond : forall n e p r, (forall m, size m < size n ->
  (wf Ex m = true -> blt false (KS m) (toks m))
  /\ (wf Fr m = true -> forall K, allowF K m -> blt true K (toks m))
  /\ (wf St m = true -> forall K, allowS K m -> blt true K (toks m))) ->
  n = NCond e p r -> wf Ex n = true -> blt false (KS n) (toks n).
Proof.
  intros n e p r IH -> H. rewrite wf_cond in H. bools. change (KS (NCond e p r)) with STOPS. cbn [toks].
  assert (A : blt false STOPS (toks e)) by (b4 IH).
  destruct (str_eqb_case (lower p) "between") as [[E1 E2]|[E1 E2]]; rewrite E1 in *.
  - destruct r; try discriminate H0. bools.
    assert (B1 : blt false STOPS (toks r1)) by (rewrite <- (KS_4 r1) by lia; apply IH; auto; cbn; lia).
    assert (B2 : blt false STOPS (toks r2)) by (rewrite <- (KS_4 r2) by lia; apply IH; auto; cbn; lia).
    apply blt_app; auto. apply (blt_okl _ _ p _ ["between"]); [left; auto|reflexivity|inc|].
    apply blt_app; auto. apply blt_kw; [reflexivity|auto].
  - bools. assert (B : blt false STOPS (toks r)) by (b4 IH).
    apply blt_app; auto. apply blt_app; auto. destruct (mem p ["is not"; "not in"]) eqn:M.
    + apply mem_In in M. destruct M as [<-|[<-|[]]]; repeat (apply blt_kw; [reflexivity|]); apply blt_nil.
    + apply orb_true_iff in H0 as [X|X]; apply mem_In in X.
      * assert (X' : In p ["="; ">"; "<"; "<="; ">="; "!="; "<>"]).
        { apply mem_false in M. cbn in M, X |- *. repeat (destruct X as [<-|X]; [tauto|]). destruct X. }
        eapply blt_oki; [exact X'|reflexivity|inc|apply blt_nil].
      * eapply blt_okl; [exact X|reflexivity|inc|apply blt_nil].
Qed.
Lemma bt_whens : forall n K ws, (forall m, size m < size n ->
  (wf Ex m = true -> blt false (KS m) (toks m))
  /\ (wf Fr m = true -> forall K, allowF K m -> blt true K (toks m))
  /\ (wf St m = true -> forall K, allowS K m -> blt true K (toks m))) ->
  incl (map fst ws) (children n) -> incl (map snd ws) (children n) -> forallb wtok ws = true -> K = minus STOPS WTE ->
  blt false K (flat_map (fun wt => Kw "when" :: toks (fst wt) ++ Kw "then" :: toks (snd wt)) ws).
Proof.
  intros n K ws IH I1 I2 H ->. induction ws as [|[a b] ws IHw]; cbn [flat_map]; [apply blt_nil|].
  cbn [forallb] in H. bools. unfold wtok in H. bools. cbn [fst snd] in *.
  apply blt_app; [|apply IHw; auto; intros x X; [apply I1|apply I2]; right; auto].
  apply blt_kw; [reflexivity|]. apply blt_app; [|apply blt_kw; [reflexivity|]]; (eapply blt_weak; [apply (bt_4 n IH)|auto|apply minus_incl]); auto; try lia;
  [apply I1|apply I2]; left; auto.
Qed.
Lemma bt_exp : forall n, (forall m, size m < size n ->
  (wf Ex m = true -> blt false (KS m) (toks m))
  /\ (wf Fr m = true -> forall K, allowF K m -> blt true K (toks m))
  /\ (wf St m = true -> forall K, allowS K m -> blt true K (toks m))) ->
  wf Ex n = true -> blt false (KS n) (toks n).
Proof.
  intros n IH H. destruct n; try discriminate H; try (eapply bt_alias; eauto; fail); try (eapply bt_cond; eauto; fail).
  all: match goal with |- blt _ (KS ?m) _ => let k := eval cbn [lvl] in (lvl m) in
    tryif constr_eq k 0 then change (KS m) with STOPS else idtac end.
  - (* NFun *) rewrite wf_fun in H. bools. cbn [toks]. apply blt_ident; [inc|auto|]. apply blt_parens. apply (bt_args _ IH); auto. intros x; auto.
  - (* NCast *) rewrite wf_cast in H. bools. cbn [toks]. apply blt_kw; [reflexivity|]. apply blt_parens. apply blt_app.
    + eapply blt_in. b4 IH.
    + apply blt_kw; [reflexivity|]. apply blt_ident; [inc|auto|apply blt_nil].
  - (* NCount *) rewrite wf_count in H. bools. cbn [toks]. apply blt_kw; [reflexivity|]. apply blt_parens. apply blt_app.
    + destruct distinct; [apply blt_kw; [reflexivity|]|]; apply blt_nil.
    + apply (bt_args _ IH); auto. intros x; auto.
  - (* NArrayAgg *) rewrite wf_arrayagg in H. bools. cbn [toks]. apply blt_kw; [reflexivity|]. apply blt_parens.
    repeat apply blt_app.
    + destruct distinct; [apply blt_kw; [reflexivity|]|]; apply blt_nil.
    + eapply blt_in. b4 IH.
    + destruct ignore_nulls; repeat (apply blt_kw; [reflexivity|]); apply blt_nil.
    + destruct order as [l|]; [|apply blt_nil]. do 2 (apply blt_kw; [reflexivity|]). cbn [oall] in *.
      eapply blt_commas_in. apply (bt_items _ IH); auto. intros x X. right. auto.
    + destruct limit as [z|]; [|apply blt_nil]. apply blt_kw; [reflexivity|]. apply blt_digits; [inc|apply blt_nil].
  - (* NFiltered *) rewrite wf_filtered in H. bools. cbn [toks]. apply blt_app.
    + apply (bt_4 _ IH); [child|assumption|]. destruct n1; cbn in *; try discriminate; lia.
    + apply blt_kw; [reflexivity|]. apply blt_parens. apply blt_kw; [reflexivity|]. eapply blt_in. b4 IH.
  - (* NAnalytics *) rewrite wf_analytics in H. bools. cbn [toks]. apply blt_app; [b4 IH|].
    apply blt_kw; [reflexivity|]. apply blt_parens. repeat apply blt_app.
    + destruct partition as [l|]; [|apply blt_nil]. cbn [oall] in *. bools. do 2 (apply blt_kw; [reflexivity|]).
      eapply blt_commas_in. eapply (bt_ups _ IH 4); auto. intros x X. right. apply in_or_app. auto.
    + destruct order as [l|]; [|apply blt_nil]. cbn [oall] in *. do 2 (apply blt_kw; [reflexivity|]).
      eapply blt_commas_in. apply (bt_items _ IH); auto. intros x X. right. apply in_or_app. auto.
    + destruct frame as [[rr f]|]; [|apply blt_nil]. cbn [oall fst snd] in *. unfold frameok in H0. bools. cbn [fst snd] in *.
      apply blt_id.
      * unfold oki. rewrite !andb_true_iff, !negb_true_iff, !mem_false. repeat split; auto.
        -- destruct H0 as [X|[X|[]]]; symmetry in X; eapply word_plain; eauto.
        -- destruct H0 as [X|[X|[]]]; rewrite <- X; cbn; intuition discriminate.
      * rewrite forallb_forall in H5. induction (split 32 f) as [|x l IHl]; [apply blt_nil|]. cbn [map]. apply blt_id; [|apply IHl; intros; apply H5; right; auto].
        assert (Y := H5 x ltac:(left; auto)). bools. unfold oki. rewrite !andb_true_iff, !negb_true_iff, !mem_false. repeat split; auto.
        intros Z. cbn in Z. repeat (destruct Z as [<-|Z]; [discriminate H6|]); auto.
  - (* NColumn *) cbn [wf] in H. cbn [toks]. apply orb_true_iff in H as [H|H]; [apply blt_ident; [inc|auto|apply blt_nil]|].
    bools. subst. apply blt_id; [reflexivity|apply blt_nil].
  - (* NChained *) rewrite wf_chained in H. bools. change (KS (NChained n1 n2)) with STOPS. cbn [toks].
    assert (lvl n2 <= 4) by (apply orb_true_iff in H1 as [H1|H1]; bools; [lia|destruct n2; try discriminate H1; cbn; destruct n2; lia]).
    apply blt_app; [b4 IH|]. apply blt_id; [reflexivity|]. b4 IH.
  - (* NDatePart *) rewrite wf_datepart in H. bools. change (KS (NDatePart part n)) with (minus STOPS ["from"]). cbn [toks].
    eapply blt_okl; [exact H|reflexivity|apply minus_incl|]. apply blt_kw; [reflexivity|].
    eapply blt_weak; [b4 IH|auto|apply minus_incl].
  - (* NString *) cbn [wf] in H. destruct prefix; [discriminate H|]. bools. cbn [toks]. apply blt_string; auto. inc.
  - (* NInt *) cbn [toks]. destruct (Z.ltb_spec z 0).
    + apply blt_id; [reflexivity|]. apply blt_digits; [inc|apply blt_nil].
    + apply blt_digits; [inc|apply blt_nil].
  - (* NFloat *) cbn [toks wf] in *. apply float_num in H.
    destruct text as [|c t]; [apply blt_num; [inc|auto|apply blt_nil]|].
    destruct (N.eq_dec c 45) as [->|N]; [apply blt_id; [reflexivity|]; apply blt_num; [inc|auto|apply blt_nil]|].
    assert (X : forall A (x y : A), match c with 45%N => x | _ => y end = y) by (intros; destruct c as [|p]; auto; do 6 (destruct p as [p|p|]; auto); congruence).
    rewrite X in *. apply blt_num; [inc|auto|apply blt_nil].
  - apply blt_kw; [reflexivity|apply blt_nil].
  - cbn [toks]. destruct b; (apply blt_kw; [reflexivity|apply blt_nil]).
  - rewrite wf_paren in H. cbn [toks]. apply blt_parens. apply (bt_args _ IH); auto. intros x; auto.
  - rewrite wf_array in H. cbn [toks]. apply blt_brackets. apply (bt_args _ IH); auto. intros x; auto.
  - (* NIndex *) rewrite wf_index in H. bools. cbn [toks]. replace (KS (NIndex n indices)) with STOPS by (unfold KS, KSb; destruct n; reflexivity).
    apply blt_app; [|apply blt_brackets; apply (bt_args _ IH); auto; intros x X; right; auto].
    apply (bt_4 _ IH); [child|assumption|]. apply orb_true_iff in H1 as [H1|H1]; bools; [lia|]. destruct n; try discriminate H1. cbn. destruct n; lia.
  - (* NArith *) rewrite wf_arith in H. bools. change (KS (NArith op n1 n2)) with STOPS. cbn [toks]. apply blt_app.
    + b4 IH.
    + eapply blt_oki; [exact H|reflexivity|inc|]. b4 IH.
  - (* NBitwise *) rewrite wf_bitwise in H. bools. change (KS (NBitwise n1 op n2)) with STOPS. cbn [toks]. apply blt_app.
    + b4 IH.
    + eapply blt_oki; [exact H|reflexivity|inc|]. b4 IH.
  - (* NBoolC *) rewrite wf_boolc in H. bools. change (KS (NBoolC ty n1 n2)) with STOPS. cbn [toks]. apply blt_app.
    + b4 IH.
    + eapply blt_okl; [exact H|reflexivity|inc|]. b4 IH.
  - rewrite wf_neg in H. bools. change (KS (NNeg n)) with STOPS. cbn [toks]. apply blt_kw; [reflexivity|].
    b4 IH.
  - (* NExcept *) rewrite wf_except in H. bools. change (KS (NExcept n args)) with (minus STOPS ["except"]). cbn [toks]. apply blt_app.
    + eapply blt_weak; [b4 IH|auto|apply minus_incl].
    + apply blt_kw; [reflexivity|]. apply blt_parens. apply (bt_args _ IH); auto. intros x X. right. auto.
  - (* NReplace *) rewrite wf_replace in H. bools. change (KS (NReplace n args)) with (minus STOPS ["except"]). cbn [toks]. apply blt_app.
    + eapply blt_weak; [apply (bt_ex _ IH); [child|assumption]|auto|]. apply KS_6. match goal with X : _ || _ = true |- _ => apply orb_true_iff in X as [X|X]; [apply Nat.leb_le in X|apply Nat.eqb_eq in X]; lia end.
    + apply blt_kw; [reflexivity|]. apply blt_parens. apply (bt_args _ IH); auto. intros x X. right. auto.
  - (* NCase *) rewrite wf_case in H. bools. cbn [toks].
    match goal with |- blt _ _ (Kw "case" :: ?a ++ ?b ++ ?c ++ [Kw "end"]) =>
      replace (a ++ b ++ c ++ [Kw "end"]) with ((a ++ b ++ c) ++ [Kw "end"]) by (rewrite <- !app_assoc; auto) end.
    apply blt_case. repeat apply blt_app.
    + destruct e as [x|]; [|apply blt_nil]. cbn [oall] in *. bools. eapply blt_weak; [b4 IH|auto|apply minus_incl].
    + eapply bt_whens; eauto; intros x X; apply in_or_app; right; apply in_or_app; [left; auto|right; apply in_or_app; left; auto].
    + destruct els as [x|]; [|apply blt_nil]. cbn [oall] in *. bools. apply blt_kw; [reflexivity|].
      eapply blt_weak; [b4 IH|auto|apply minus_incl].
Qed.

(** ** FROM items and statements *)
Definition tableok (v : node) : bool :=
  wf Ex v && match v with
             | NString _ _ _ => true
             | NChained (NString _ _ _) _ => true
             | NAlias e _ _ => (lvl e <=? 4) && starts_ident (toks v)
             | _ => (lvl v <=? 4) && starts_ident (toks v)
             end.
Lemma wf_table : forall v b, wf Fr (NTable v b) = if b then upto 4 v else tableok v.
Proof. intros v [|]; reflexivity. Qed.
Definition unnestok (e : node) : bool :=
  match e with
  | NFun name l => str_eqb name "unnest" && forallb argok l
  | NAlias (NFun name l) a _ => str_eqb name "unnest" && forallb argok l && alsok a
  | _ => false
  end.
Lemma wf_unnest : forall e wo was al, wf Fr (NUnnest e wo was al) =
  unnestok e && (wo || negb was) && match al with Some a => wo && ident a | None => negb was end.
Proof. reflexivity. Qed.
Definition closed_item (e : node) : bool :=
  match e with
  | NParen _ | NTable _ true | NTable (NString _ _ _) false | NTable (NChained (NString _ _ _) _) false => true
  | _ => false
  end.
Lemma wf_falias : forall e a w, wf Fr (NAlias e a w) = wf Fr e && alsok a && closed_item e.
Proof. reflexivity. Qed.
Definition condok (c : node) : bool := wf Ex c && (lvl c <=? 4) && clausable c.
Definition joinok (ty : str) (r : node) (on_ using_ : option node) : bool :=
  if mem ty ["CROSS JOIN"; ","] then match on_, using_ with None, None => true | _, _ => false end
  else join_words ty && (flvl r <=? 1)
       && match on_, using_ with Some c, None | None, Some c => condok c | _, _ => false end.
Lemma wf_join : forall ty l r on_ using_, wf Fr (NJoin ty l r on_ using_) =
  wf Fr l && (flvl l <=? 2) && wf Fr r && joinok ty r on_ using_.
Proof. reflexivity. Qed.
Lemma wf_combined : forall op l r, wf Fr (NCombined op l r) =
  set_words op && wf Fr l && ((flvl l <=? 1) || Nat.eqb (flvl l) 4)
  && (if is_sel r then bare_select r && wf St r else wf Fr r && (flvl r <=? 3)) && no_set r.
Proof. reflexivity. Qed.
Definition donok (d : bool) (don : option (list node)) : bool :=
  match don with Some l => d && nonnil l && forallb (upto 3) l | None => true end.
Definition groupok (group : option (list node * bool * bool)) : bool :=
  match group with Some (l, _, _) => nonnil l && forallb (upto 3) l | None => true end.
Definition limitok (limit : option (bool * option node)) : bool :=
  match limit with
  | Some (true, None) | None => true
  | Some (false, Some e) => upto 3 e
  | _ => false end.
Lemma wf_select : forall exprs all d don from_ where_ group having order limit offset semi,
  wf St (NSelect exprs all d don from_ where_ group having order limit offset semi) =
  negb (all && d) && donok d don && nonnil exprs && forallb (upto 7) exprs && oall (wf Fr) from_
  && oall condok where_ && groupok group && oall condok having && oall itemsok order && limitok limit && oall (upto 3) offset
  && negb semi.
Proof. reflexivity. Qed.
Lemma wf_with : forall qs s, wf St (NWith qs s) = nonnil qs && forallb wqok qs && is_sel s && wf St s.
Proof. reflexivity. Qed.

Definition LISTS : list (list str) := [[]; FK; OU; [","]; SET_OPERATORS].
Lemma allowF_LISTS : forall K n, allowF K n -> In K LISTS.
Proof. intros K n H. unfold LISTS. destruct H as [->|[->|[[-> _]|[[-> _]|[-> _]]]]]; cbn [In]; auto 7. Qed.
Lemma allowS_LISTS : forall K n, allowS K n -> In K LISTS.
Proof. intros K n H. unfold LISTS. destruct H as [->|[[-> _]|[_ [->|[-> _]]]]]; cbn [In]; auto 7. Qed.
Lemma LISTS_all : forall (f : list str -> bool) K, In K LISTS -> forallb f LISTS = true -> f K = true.
Proof. intros f K H F. rewrite forallb_forall in F. auto. Qed.
Lemma LISTS_STOPS : forall K, In K LISTS -> incl K STOPS.
Proof. intros K H. apply inclb_ok. apply (LISTS_all (fun K => inclb K STOPS)); auto. Qed.
Lemma LISTS_as : forall K, In K LISTS -> incl K (minus STOPS ["as"]).
Proof. intros K H. apply inclb_ok. apply (LISTS_all (fun K => inclb K (minus STOPS ["as"]))); auto. Qed.
Lemma LISTS_kw : forall w K k a, In K LISTS -> forallb (fun K => okw K k) LISTS = true -> blt w K a -> blt w K (Kw k :: a).
Proof. intros w K k a H F A. apply blt_kw; auto. apply (LISTS_all (fun K => okw K k)); auto. Qed.

Section Froms.
Variable n : node.
Hypothesis IH : forall m, size m < size n ->
  (wf Ex m = true -> blt false (KS m) (toks m))
  /\ (wf Fr m = true -> forall K, allowF K m -> blt true K (toks m))
  /\ (wf St m = true -> forall K, allowS K m -> blt true K (toks m)).
Lemma bt_true : forall a K, In K LISTS -> In a (children n) -> wf Ex a = true -> lvl a <= 4 -> blt true K (toks a).
Proof. intros a K I C W L. eapply blt_weak; [apply (bt_4 _ IH); eauto|auto|apply LISTS_STOPS; auto]. Qed.
Lemma bt_als : forall a K, In K LISTS -> incl (match a with inr x => [x] | _ => [] end) (children n) -> alsok a = true ->
  blt true K (match a with inl t => [Id t] | inr x => toks x end).
Proof.
  intros [t|x] K I C H; cbn [alsok] in H; bools.
  - apply blt_ident; [apply LISTS_STOPS; auto|auto|apply blt_nil].
  - apply bt_true; auto; [apply C; left; auto|]. destruct x; try discriminate H; cbn; lia.
Qed.
End Froms.
Lemma blt_wo : forall K a, blt true K a -> blt true K (Kw "with" :: Kw "offset" :: a).
Proof. intros K a A ss S. sp. apply bl_wo; auto. Qed.
Lemma blt_kws : forall w K l, Forall (fun k => okw K k = true) l -> blt w K (map Kw l).
Proof. intros w K l H. induction H; cbn [map]; [apply blt_nil|]. apply blt_kw; auto. Qed.

Lemma bt_unnest : forall n e wo was al K, (forall m, size m < size n ->
  (wf Ex m = true -> blt false (KS m) (toks m))
  /\ (wf Fr m = true -> forall K, allowF K m -> blt true K (toks m))
  /\ (wf St m = true -> forall K, allowS K m -> blt true K (toks m))) ->
  n = NUnnest e wo was al -> wf Fr n = true -> In K LISTS -> blt true K (toks n).
Proof.
  intros n e wo was al K IH -> H L. rewrite wf_unnest in H. bools. cbn [toks].
  assert (IH' : forall x, In x (children e) -> size x < size (NUnnest e wo was al)).
  { intros x X. apply children_size in X. cbn. lia. }
  assert (AR : forall l, incl l (children e) -> forallb argok l = true -> blt true [] (commas (map toks l))).
  { intros l I F. apply (bt_args e); auto. intros m M. apply IH. cbn. lia. }
  apply blt_app.
  - destruct e; try discriminate H; cbn [unnestok] in H.
    + bools. apply LISTS_kw; [auto|reflexivity|]. apply blt_parens. apply AR; auto. intros x; auto.
    + destruct e; try discriminate H. bools. apply LISTS_kw; [auto|reflexivity|].
      apply blt_app; [|apply blt_app].
      * apply blt_parens. apply (bt_args (NFun name args)); auto; [|intros x; auto]. intros m M. apply IH. cbn in *. lia.
      * destruct with_as; [apply LISTS_kw; [auto|reflexivity|]|]; apply blt_nil.
      * apply (bt_als (NAlias (NFun name args) alias with_as)); auto; [intros m M; apply IH; cbn in *; lia|].
        intros x X. right. destruct alias; auto.
  - destruct wo; [|apply blt_nil]. apply blt_wo. destruct al as [a|]; [|apply blt_nil]. bools. apply blt_app.
    + destruct was; [apply LISTS_kw; [auto|reflexivity|]|]; apply blt_nil.
    + apply blt_ident; [apply LISTS_STOPS; auto|auto|apply blt_nil].
Qed.
Lemma table_lvl : forall v, match v with
             | NString _ _ _ => true
             | NChained (NString _ _ _) _ => true
             | NAlias e _ _ => (lvl e <=? 4) && starts_ident (toks v)
             | _ => (lvl v <=? 4) && starts_ident (toks v)
             end = true -> lvl v <= 4 \/ exists e a w, v = NAlias e a w /\ lvl e <= 4.
Proof.
  intros v H. destruct v; try (apply andb_true_iff in H as [H _]; apply Nat.leb_le in H; left; exact H).
  - left. cbn. lia.
  - left. cbn. lia.
  - right. apply andb_true_iff in H as [H _]. apply Nat.leb_le in H. eauto 6.
Qed.
Lemma table_KS : forall v K, match v with
             | NString _ _ _ => true
             | NChained (NString _ _ _) _ => true
             | NAlias e _ _ => (lvl e <=? 4) && starts_ident (toks v)
             | _ => (lvl v <=? 4) && starts_ident (toks v)
             end = true -> In K LISTS -> incl K (KS v).
Proof.
  intros v K H L. apply table_lvl in H as [H|(e & a & w & -> & H)].
  - rewrite KS_4 by auto. apply LISTS_STOPS; auto.
  - unfold KS. rewrite KSb_4 by auto. apply LISTS_as; auto.
Qed.
Lemma bt_from : forall n, (forall m, size m < size n ->
  (wf Ex m = true -> blt false (KS m) (toks m))
  /\ (wf Fr m = true -> forall K, allowF K m -> blt true K (toks m))
  /\ (wf St m = true -> forall K, allowS K m -> blt true K (toks m))) ->
  wf Fr n = true -> forall K, allowF K n -> blt true K (toks n).
Proof.
  intros n IH H K A. assert (L := allowF_LISTS K n A).
  destruct n; try discriminate H.
  - (* NParen *) destruct args as [|f [|? ?]]; try discriminate H. cbn [toks map commas]. apply blt_parens.
    assert (S : size f < size (NParen [f])) by (cbn; lia). apply IH in S as (_ & B & C). cbn [wf] in H.
    destruct (is_sel f || is_wth f).
    + apply C; auto. left; auto.
    + apply B; auto. left; auto.
  - (* NAlias *) rewrite wf_falias in H. bools. cbn [toks]. apply blt_app; [|apply blt_app].
    + apply (proj1 (proj2 (IH n ltac:(cbn; lia)))); [assumption|]. unfold allowF in *. cbn [flvl one_column no_set] in *.
      assert (flvl n <= 1) by (destruct n; try discriminate H0; cbn; lia). tauto.
    + destruct with_as; [apply LISTS_kw; [auto|reflexivity|]|]; apply blt_nil.
    + apply (bt_als (NAlias n alias with_as) IH); auto. intros x X. right. destruct alias; auto.
  - (* NTable *) rewrite wf_table in H. destruct brackets; cbn [toks].
    + bools. apply blt_brackets. eapply blt_in. b4 IH.
    + unfold tableok in H. bools.
      assert (X : blt false (KS n) (toks n) ) by (apply (bt_ex _ IH); [child|assumption]).
      assert (Y : incl K (KS n)) by (apply table_KS; auto).
      eapply blt_weak; eauto.
  - eapply bt_unnest; eauto.
  - (* NJoin *) rewrite wf_join in H. bools. cbn [toks].
    assert (SZ : size n1 < size (NJoin ty n1 n2 on_ using_) /\ size n2 < size (NJoin ty n1 n2 on_ using_)) by (cbn; lia).
    assert (FL : flvl (NJoin ty n1 n2 on_ using_) > 1) by (cbn; destruct on_, using_; lia).
    assert (AL : allowF K n1 /\ allowF K n2 /\ (K = [","] -> str_eqb ty "," = false) /\ K <> OU).
    { unfold allowF in *. cbn [one_column no_set] in A. destruct A as [->|[->|[[-> A]|[[-> A]|[-> A]]]]].
      - repeat split; auto; discriminate.
      - repeat split; auto; discriminate.
      - lia.
      - bools. repeat split; auto 6. discriminate.
      - bools. repeat split; auto 7; discriminate. }
    destruct AL as (A1 & A2 & A3 & A4).
    destruct SZ as [SZ1 SZ2]. apply IH in SZ1 as (_ & SZ1 & _). apply IH in SZ2 as (_ & SZ2 & _).
    apply blt_app; [apply SZ1; assumption|]. apply blt_app.
    { destruct (str_eqb ty ",") eqn:TY.
      - apply blt_id; [|apply blt_nil]. destruct L as [<-|[<-|[<-|[<-|[<-|[]]]]]]; try reflexivity. discriminate (A3 eq_refl).
      - unfold kws. apply blt_kws. apply Forall_forall. intros x X. unfold joinok in H0.
        assert (JW : In x ["join"; "inner"; "left"; "right"; "full"; "cross"; "outer"; "each"]).
        { destruct (mem ty ["CROSS JOIN"; ","]) eqn:M.
          - apply mem_In in M. destruct M as [<-|[<-|[]]]; [|discriminate TY]. revert X. apply inclb_ok. reflexivity.
          - bools. unfold join_words in H0. bools. match goal with F : forallb _ (split _ _) = true |- _ => rewrite forallb_forall in F; apply F in X end. apply mem_In in X. auto. }
        assert (F : forall L, inclb L STOPS = true -> forallb (fun x => okw L x) ["join"; "inner"; "left"; "right"; "full"; "cross"; "outer"; "each"] = true -> okw L x = true).
        { intros L' _ F. rewrite forallb_forall in F. auto. }
        destruct L as [<-|[<-|[<-|[<-|[<-|[]]]]]]; apply F; reflexivity. }
    assert (CD : forall c k, In c (olist on_ ++ olist using_) -> okw K k = true -> condok c = true -> blt true K (Kw k :: toks c)).
    { intros c k I W O. unfold condok in O. bools. apply blt_kw; auto. apply (bt_true _ IH); auto.
      cbn [children]. right. right. auto. }
    assert (OK : okw K "on" = true /\ okw K "using" = true) by (destruct L as [<-|[<-|[<-|[<-|[<-|[]]]]]]; try (split; reflexivity); congruence).
    apply blt_app; [apply SZ2; assumption|]. unfold joinok in H0. destruct (mem ty ["CROSS JOIN"; ","]).
    + destruct on_; [discriminate|]. destruct using_; [discriminate|]. apply blt_nil.
    + bools. destruct on_ as [c|], using_ as [c'|]; try discriminate; try apply blt_nil.
      * apply blt_app; [|apply blt_nil]. apply CD; auto; [left; auto|tauto].
      * apply blt_app; [apply blt_nil|]. apply CD; auto; [left; auto|tauto].
  - (* NCombined *) rewrite wf_combined in H. bools. cbn [toks].
    assert (SZ : size n1 < size (NCombined op n1 n2) /\ size n2 < size (NCombined op n1 n2)) by (cbn; lia).
    assert (AL : K <> OU /\ K <> SET_OPERATORS /\ (K = [","] -> one_column n1 = true /\ one_column n2 = true)).
    { unfold allowF in A. cbn [flvl one_column no_set] in A. destruct A as [->|[->|[[-> A]|[[-> A]|[-> A]]]]].
      - repeat split; discriminate.
      - repeat split; discriminate.
      - lia.
      - bools. repeat split; auto; discriminate.
      - discriminate. }
    destruct AL as (A1 & A2 & A3).
    assert (K = [] \/ K = FK \/ K = [",": str]) by (destruct L as [<-|[<-|[<-|[<-|[<-|[]]]]]]; try congruence; auto).
    destruct SZ as [SZ1 SZ2]. apply IH in SZ1 as (_ & SZ1 & _). apply IH in SZ2 as (_ & SZ2 & SZ3).
    apply blt_app.
    { apply SZ1; [assumption|]. destruct H4 as [E4|[E4|E4]]; [left; exact E4|right; left; exact E4|].
      right. right. right. left. split; [exact E4|apply A3; exact E4]. }
    apply blt_app.
    { apply blt_kws. apply Forall_forall. intros x X. unfold set_words in H. bools. match goal with F : forallb _ (split _ _) = true |- _ => rewrite forallb_forall in F; apply F in X end. apply mem_In in X.
      assert (F : forall L, forallb (fun x => okw L x) SET_OPERATORS = true -> okw L x = true).
      { intros L' F. rewrite forallb_forall in F. auto. }
      destruct H4 as [-> | [-> | ->]]; apply F; reflexivity. }
    destruct (is_sel n2) eqn:S; bools.
    + apply SZ3; [assumption|]. destruct H4 as [E4|[E4|E4]]; [left; exact E4|right; right; split; [assumption|left; exact E4]|].
      right. left. split; [exact E4|]. split; [apply A3; exact E4|exact S].
    + apply SZ2; [assumption|]. destruct H4 as [E4|[E4|E4]]; [left; exact E4|right; left; exact E4|].
      right. right. right. left. split; [exact E4|apply A3; exact E4].
Qed.

Lemma KS_7 : forall n, wf Ex n = true -> lvl n <= 7 -> incl (minus STOPS ["except"; "as"]) (KS n).
Proof.
  intros n W H. destruct (le_lt_dec (lvl n) 6) as [L|L].
  - intros x X. apply (KS_6 n L). apply minus_In in X as [X Y]. apply minus_In. split; auto. intros [<-|[]]. apply Y. left. auto.
  - destruct n; try (cbn in H, L; lia); try (destruct n; cbn in H, L; lia). rewrite wf_alias in W. bools. unfold KS. intros x X.
    apply minus_In in X as [X Y]. apply minus_In. split; [|intros [<-|[]]; apply Y; right; left; auto].
    rewrite KSb_KS by auto. apply KS_6; auto. apply minus_In; split; auto; intros [<-|[]]; apply Y; left; auto.
Qed.
Lemma blt_sel_list : forall K l, (In "," K -> length l <= 1) -> Forall (blt true K) l -> blt true K (commas l).
Proof.
  intros K l H F. destruct (in_dec (list_eq_dec N.eq_dec) "," K); [apply blt_commas1|apply blt_commas]; auto.
Qed.
Lemma blt_clauses : forall {A} K (o : option A) f, (forall x, o = Some x -> blt true K (f x)) ->
  blt true K (match o with Some x => f x | None => [] end).
Proof. intros A K [x|] f H; [auto|apply blt_nil]. Qed.
Lemma bt_select : forall n exprs all d don from_ where_ group having order limit offset semi, (forall m, size m < size n ->
  (wf Ex m = true -> blt false (KS m) (toks m))
  /\ (wf Fr m = true -> forall K, allowF K m -> blt true K (toks m))
  /\ (wf St m = true -> forall K, allowS K m -> blt true K (toks m))) ->
  n = NSelect exprs all d don from_ where_ group having order limit offset semi ->
  wf St n = true -> forall K, allowS K n -> blt true K (toks n).
Proof.
  intros n exprs all d don from_ where_ group having order limit offset semi IH -> H K A.
  assert (L := allowS_LISTS K _ A). rewrite wf_select in H. bools.
  match goal with |- context [toks ?m] => set (n := m) in * end.
  assert (IN : forall x, In x (exprs ++ ollist don ++ olist from_ ++ olist where_
    ++ match group with Some (a, _, _) => a | None => [] end
    ++ olist having ++ ollist order
    ++ match limit with Some (_, Some x) => [x] | _ => [] end ++ olist offset) -> In x (children n)) by (intros x X; exact X).
  assert (KA : all = true -> K <> SET_OPERATORS).
  { intros -> ->. destruct A as [A|[[A _]|[_ [A|[_ A]]]]]; try discriminate A. }
  assert (KO : K <> OU) by (intros ->; destruct A as [A|[[A _]|[_ [A|[A _]]]]]; discriminate A).
  assert (KC : In "," K -> length exprs <= 1 /\ (forall f, from_ = Some f -> one_column f = true)
     /\ (forall a r e, group = Some (a, r, e) -> length a <= 1) /\ (forall l, order = Some l -> length l <= 1)).
  { intros C. destruct A as [->|[(-> & A & _)|(_ & [-> | (-> & _)])]].
    - destruct C.
    - cbn [one_column n] in A. bools. repeat split; auto.
      + intros f ->. auto.
      + intros a r e ->. bools. auto.
      + intros l ->. bools. auto.
    - exfalso. revert C. apply mem_false. reflexivity.
    - exfalso. revert C. apply mem_false. reflexivity. }
  assert (KB : K = FK \/ K = SET_OPERATORS -> where_ = None /\ group = None /\ having = None /\ order = None /\ limit = None /\ offset = None).
  { intros E. assert (B : bare_select n = true).
    { destruct A as [A|[(A & _)|(A & _)]]; auto; subst K; destruct E as [E|E]; discriminate E. }
    cbn in B. destruct where_, group, having, order, limit, offset; try discriminate B. repeat split; auto. }
  assert (KE : forall e, In e exprs -> blt true K (toks e)).
  { intros e E. assert (U : upto 7 e = true) by (match goal with F : forallb (upto 7) _ = true |- _ => rewrite forallb_forall in F; auto end).
    bools. eapply blt_weak; [apply (bt_ex n IH)|discriminate|]; [apply IN; apply in_or_app; auto|auto|].
    destruct L as [<-|[<-|[<-|[<-|[<-|[]]]]]].
    - intros x [].
    - eapply incl_tran; [|apply KS_7; auto]. inc.
    - congruence.
    - eapply incl_tran; [|apply KS_7; auto]. inc.
    - assert (B : no_set n = true).
      { destruct A as [A|[(A & _)|(_ & [A|(_ & A)])]]; auto; discriminate A. }
      cbn [no_set n] in B. bools. rewrite KS_4; [inc|]. match goal with F : forallb (fun e => lvl e <=? 4) _ = true |- _ => rewrite forallb_forall in F;
        apply Nat.leb_le, F; auto end. }
  assert (TB : forall a, In a (children n) -> wf Ex a = true -> lvl a <= 4 -> blt true K (toks a)) by (intros; apply (bt_true n IH); auto).
  assert (TBl : forall l, incl l (children n) -> forallb (upto 3) l = true -> Forall (blt true K) (map toks l)).
  { intros l I F. rewrite forallb_forall in F. apply Forall_map, Forall_forall. intros a AA. assert (U := F a AA). bools. apply TB; auto. }
  assert (OW : K <> FK -> K <> SET_OPERATORS -> forallb (okw K) ["where"; "group"; "each"; "by"; "rollup"; "having"; "order"; "limit"; "all"; "offset"] = true).
  { intros N1 N2. destruct L as [<-|[<-|[<-|[<-|[<-|[]]]]]]; try congruence; reflexivity. }
  assert (KX : (K = FK \/ K = SET_OPERATORS) \/ (forall k, In k ["where"; "group"; "each"; "by"; "rollup"; "having"; "order"; "limit"; "all"; "offset"] -> okw K k = true)).
  { destruct (list_eq_dec (list_eq_dec N.eq_dec) K FK); [auto|]. destruct (list_eq_dec (list_eq_dec N.eq_dec) K SET_OPERATORS); [auto|].
    right. intros k E. assert (O := OW n0 n1). rewrite forallb_forall in O. auto. }
  assert (OWk : forall k, In k ["where"; "group"; "each"; "by"; "rollup"; "having"; "order"; "limit"; "all"; "offset"] ->
     (where_ = None /\ group = None /\ having = None /\ order = None /\ limit = None /\ offset = None) \/ okw K k = true).
  { intros k E. destruct KX as [X|X]; [left; apply KB; auto|right; auto]. }
  clear KX OW KB. unfold n at 1. cbn [toks]. apply LISTS_kw; [auto|reflexivity|].
  apply blt_app; [|apply blt_app; [|apply blt_app; [|apply blt_app; [|apply blt_app; [|apply blt_app; [|apply blt_app; [|apply blt_app; [|apply blt_app]]]]]]]].
  - destruct all; [|destruct d; [|apply blt_nil]].
    + apply blt_kw; [|apply blt_nil]. destruct L as [<-|[<-|[<-|[<-|[<-|[]]]]]]; try reflexivity. destruct KA; auto.
    + apply LISTS_kw; [auto|reflexivity|]. destruct don as [l|]; [|apply blt_nil]. apply blt_kw; [destruct L as [<-|[<-|[<-|[<-|[<-|[]]]]]]; try reflexivity; congruence|].
      apply blt_parens. cbn [donok] in *. bools. eapply blt_commas_in. apply (bt_ups n IH 3); auto. intros x X. apply IN. cbn. apply in_or_app. right. apply in_or_app. auto.
  - apply blt_sel_list; [rewrite map_length; intros C; exact (proj1 (KC C))|]. apply Forall_map, Forall_forall. auto.
  - apply blt_clauses. intros f ->. apply LISTS_kw; [auto|reflexivity|]. cbn [oall] in *.
    apply (proj1 (proj2 (IH f ltac:(apply children_size, IN; apply in_or_app; right; apply in_or_app; right; left; auto)))); auto.
    unfold allowF. destruct L as [E|[E|[E|[E|[E|[]]]]]]; subst K.
    + auto.
    + right. left. auto.
    + congruence.
    + right. right. right. left. split; auto. apply KC; auto. left; auto.
    + right. right. right. right. split; auto. destruct A as [A|[(A & _)|(_ & [A|(_ & A)])]]; try discriminate A. cbn [no_set n] in A. bools. auto.
  - apply blt_clauses. intros c ->. cbn [oall] in *. repeat match goal with X : condok _ = true |- _ => unfold condok in X end. bools. apply blt_kw; [destruct (OWk "where") as [O|O]; [left; auto|destruct O; discriminate|auto]|].
    apply TB; auto. apply IN. chi.
  - apply blt_clauses. intros [[a r] e] ->. cbn [groupok] in *. bools.
    destruct (OWk "group") as [O|O1]; [right; left; auto|destruct O as (_ & O & _); discriminate|].
    destruct (OWk "each") as [O|O2]; [right; right; left; auto|destruct O as (_ & O & _); discriminate|].
    destruct (OWk "by") as [O|O3]; [right; right; right; left; auto|destruct O as (_ & O & _); discriminate|].
    destruct (OWk "rollup") as [O|O4]; [right; right; right; right; left; auto|destruct O as (_ & O & _); discriminate|].
    apply blt_kw; auto. apply blt_app; [destruct e; [apply blt_kw; auto|]; apply blt_nil|]. apply blt_kw; auto.
    apply blt_app; [destruct r; [apply blt_kw; auto|]; apply blt_nil|].
    apply blt_sel_list; [rewrite map_length; intros C; apply KC in C as (_ & _ & C & _); eapply C; eauto|].
    apply TBl; auto. intros x X. apply IN. chi.
  - apply blt_clauses. intros c ->. cbn [oall] in *. repeat match goal with X : condok _ = true |- _ => unfold condok in X end. bools.
    apply blt_kw; [destruct (OWk "having") as [O|O]; [do 5 right; left; auto|destruct O as (_ & _ & O & _); discriminate|auto]|].
    apply TB; auto. apply IN. chi.
  - apply blt_clauses. intros l ->. cbn [oall] in *.
    destruct (OWk "order") as [O|O1]; [do 6 right; left; auto|destruct O as (_ & _ & _ & O & _); discriminate|].
    destruct (OWk "by") as [O|O3]; [right; right; right; left; auto|destruct O as (_ & _ & _ & O & _); discriminate|].
    apply blt_kw; auto. apply blt_kw; auto.
    apply blt_sel_list; [rewrite map_length; intros C; apply KC in C as (_ & _ & _ & C); eapply C; eauto|].
    eapply Forall_weak; [apply (bt_items n IH); auto; intros x X; apply IN; chi|discriminate|].
    apply inclb_ok. apply (LISTS_all (fun K => inclb K (minus STOPS ["asc"; "desc"]))); auto.
  - destruct limit as [[b o]|]; [|apply blt_nil].
    destruct (OWk "limit") as [O|O1]; [do 7 right; left; auto|destruct O as (_ & _ & _ & _ & O & _); discriminate|].
    destruct (OWk "all") as [O|O3]; [do 8 right; left; auto|destruct O as (_ & _ & _ & _ & O & _); discriminate|].
    destruct b, o as [e|]; cbn [limitok] in *; try discriminate.
    + apply blt_kw; auto. apply blt_kw; auto. apply blt_nil.
    + bools. apply blt_kw; auto. apply TB; auto. apply IN. chi.
  - apply blt_clauses. intros c ->. cbn [oall] in *. bools.
    apply blt_kw; [destruct (OWk "offset") as [O|O]; [do 9 right; left; auto|destruct O as (_ & _ & _ & _ & _ & O); discriminate|auto]|].
    apply TB; auto. apply IN. chi.
  - destruct semi; [discriminate|]. apply blt_nil.
Qed.
Lemma bl_tail : forall w K t u, plain t -> bl w K (t :: u) -> bl w K u.
Proof.
  intros w K t u [P1 P2] H. remember (t :: u) as x eqn:E. destruct H as [|? ? ? ? H|? ? ? ?|? ? ? ?|c ? ? ? C|q s ? Q|a b ? W A B|a b ? A B];
    try discriminate E; injection E as <- <-; auto; exfalso.
  - apply P1. left. auto.
  - apply P1. right. right. left. auto.
  - apply P2. rewrite C. left. auto.
  - apply P1. destruct Q as [<-|[<-|[<-|[]]]]; do 4 right; cbn [In]; auto.
  - apply P2. rewrite A. do 2 right. left. auto.
  - apply P2. rewrite A. do 2 right. left. auto.
Qed.
Lemma bt_stmt : forall n, (forall m, size m < size n ->
  (wf Ex m = true -> blt false (KS m) (toks m))
  /\ (wf Fr m = true -> forall K, allowF K m -> blt true K (toks m))
  /\ (wf St m = true -> forall K, allowS K m -> blt true K (toks m))) ->
  wf St n = true -> forall K, allowS K n -> blt true K (toks n).
Proof.
  intros n IH H K A. destruct n; try discriminate H.
  - eapply bt_select; eauto.
  - assert (KN : K = []) by (destruct A as [A|[(_ & _ & A)|(A & _)]]; auto; discriminate A). subst K.
    rewrite wf_with in H. bools. cbn [toks].
    assert (Q : Forall (fun q => blt true [] (parens (toks (snd q)))) queries).
    { apply Forall_forall. intros q Q. match goal with F : forallb wqok _ = true |- _ => rewrite forallb_forall in F; apply F in Q as W end.
      unfold wqok in W. bools. apply blt_parens. apply (IH (snd q)); auto; [|left; auto].
      apply children_size. cbn [children]. apply in_or_app. left. apply in_map. auto. }
    assert (S : blt true [] (toks n)).
    { apply (IH n); auto; [|left; auto]. apply children_size. cbn [children]. apply in_or_app. right. left. auto. }
    destruct queries as [|q qs]; [discriminate|].
    assert (X : forall w, forall t, blt true [] (Id (fst q) :: t) -> forallb wqok (q :: qs) = true -> spells (Kw "with") w -> forall ss, spelling (Id (fst q) :: t) ss -> bl true [] (w :: ss)).
    { intros w t B F W ss SP. assert (ID : ident (fst q) = true).
      { cbn [forallb] in F. apply andb_true_iff in F as [F _]. unfold wqok in F. bools. auto. }
      apply spelling_id in SP as (s & -> & SP).
      apply bl_wi; auto.
      - split; [apply ident_marks; auto|]. apply ident_not; auto.
      - intros E. apply (ident_not ["offset"] (fst q)); auto. rewrite E. left. auto.
      - apply (bl_tail true [] (fst q)); [split; [apply ident_marks; auto|apply ident_not; auto]|].
        apply B. apply Forall2_cons; [reflexivity|exact SP]. }
    intros ss SP. apply spelling_kw in SP as (w & s & -> & W & SP). revert s SP.
    match goal with |- forall s, spelling ?t s -> _ => assert (B : blt true [] t) end.
    { apply blt_app; auto. apply blt_commas; [auto|]. apply Forall_map. apply Forall_forall. intros q' Q'.
      rewrite Forall_forall in Q. match goal with F : forallb wqok _ = true |- _ => rewrite forallb_forall in F; assert (W' := F _ Q') end.
      unfold wqok in W'. bools. apply blt_ident; [intros ? []|auto|]. apply blt_kw; [reflexivity|]. apply Q; auto. }
    intros s SP.
    assert (E : exists t, commas (map (fun q => Id (fst q) :: Kw "as" :: parens (toks (snd q))) (q :: qs)) ++ toks n = Id (fst q) :: t).
    { destruct qs; cbn [map commas app]; eexists; reflexivity. }
    destruct E as (t & E). rewrite E in *. eapply X; eauto.
Qed.
Lemma bl_all : forall n,
  (wf Ex n = true -> blt false (KS n) (toks n))
  /\ (wf Fr n = true -> forall K, allowF K n -> blt true K (toks n))
  /\ (wf St n = true -> forall K, allowS K n -> blt true K (toks n)).
Proof.
  intros n. remember (size n) as k eqn:E. revert n E. induction k as [k IH] using (well_founded_induction lt_wf). intros n ->.
  assert (IH' : forall m, size m < size n -> (wf Ex m = true -> blt false (KS m) (toks m))
  /\ (wf Fr m = true -> forall K, allowF K m -> blt true K (toks m))
  /\ (wf St m = true -> forall K, allowS K m -> blt true K (toks m))) by (intros m M; eapply IH; eauto).
  split; [|split]; [apply bt_exp|apply bt_from|apply bt_stmt]; auto.
Qed.
