(** The literals of a query: what stands between quotes is never one of the words that may change case. *)
From Verif Require Import PyStr PyFloat Lib Digits AstLib Ast Tokeniser SpecTok ProofTok ProofTok2 ProofTok3 Parser Api Grammar Scan GramTok GramExpr Render LexText SpecRound GramText GramCase GramRound.
Local Open Scope str_scope.
Local Open Scope list_scope.

(** literals of a token list *)
Fixpoint toklits (ts : list str) : list (str * str) :=
  match ts with
  | [] => []
  | t :: r =>
    if mem t QUOTES then
      match r with
      | [] => []
      | u :: r1 => if str_eqb u t then (t, []) :: toklits r1 else match r1 with [] => [] | _ :: r2 => (t, u) :: toklits r2 end
      end
    else toklits r
  end.
Definition BARE : list str := QUOTES ++ [";"].
Definition plain (e : entry) : Prop := match e with Word k | Name k | Col k => mem (lower k) BARE = false | Number z => (0 <= z)%Z end.
Inductive lseq : list entry -> Prop :=
| ls_nil : lseq []
| ls_one : forall e r, plain e -> lseq r -> lseq (e :: r)
| ls_lit : forall q v r, mem q QUOTES = true -> v <> q -> v <> ";" -> lseq r -> lseq (Name q :: match v with [] => [] | _ => [Name v] end ++ Name q :: r).
Lemma bare_lower : forall s, mem s BARE = true -> mem (lower s) BARE = true.
Proof. intros s H. apply mem_In in H. cbn in H. destruct H as [<-|[<-|[<-|[<-|[]]]]]; reflexivity. Qed.
Lemma not_bare : forall s, mem (lower s) BARE = false -> mem s QUOTES = false /\ s <> ";".
Proof.
  intros s H. assert (X : mem s BARE = false) by (destruct (mem s BARE) eqn:E; auto; apply bare_lower in E; congruence). apply mem_false in X. split; [apply mem_false; intros Y; apply X, in_or_app; auto|].
  intros ->. apply X. cbn. auto.
Qed.
Lemma quote_not_word : forall s, mem (lower s) BARE = true -> mem s BARE = true.
Proof.
  intros s H. apply mem_In in H. assert (X : forall q, In q BARE -> lower s = q -> s = q).
  { intros q Q L. apply lower_sign; cbn in Q; destruct Q as [<-|[<-|[<-|[<-|[]]]]]; auto. }
  apply mem_In. rewrite (X (lower s) H eq_refl). auto.
Qed.
Lemma word_plain : forall v, word v = true -> mem (lower v) BARE = false.
Proof.
  intros v W. destruct (mem (lower v) BARE) eqn:E; auto. apply quote_not_word, mem_In in E. cbn in E. destruct E as [<-|[<-|[<-|[<-|[]]]]]; discriminate W.
Qed.
Lemma num_plain : forall z, (0 <= z)%Z -> mem (lower (str_of_Z z)) BARE = false.
Proof. intros z H. apply word_plain, digit_word, str_of_Z_digits, H. Qed.
Lemma plain_reads : forall e s, plain e -> reads e s -> mem s QUOTES = false /\ s <> ";".
Proof. intros [k|k|k|z] s P H; cbn [plain reads] in *; subst; apply not_bare; auto; [rewrite lower_idem in P; auto|]. destruct H as [D _]. apply word_plain, digit_word, D. Qed.
Lemma plain_prints : forall e, plain e -> mem (prints e) QUOTES = false /\ prints e <> ";".
Proof. intros [k|k|k|z] P; cbn [plain prints] in *; apply not_bare; auto; [rewrite lower_upper; auto|destruct (mem k COLUMN_KEYWORDS); [rewrite lower_upper|]; auto|apply num_plain; auto]. Qed.
Lemma lseq_lits : forall es, lseq es -> forall z ss, Forall2 reads es ss -> toklits (ss ++ z) = toklits (map prints es ++ z).
Proof.
  intros es H z. induction H as [|e r P H IH|q v r Q V V2 H IH]; intros ss F.
  - inversion F. auto.
  - inversion F as [|? s ? rs R F']; subst. cbn [map app toklits]. rewrite (proj1 (plain_reads e s P R)), (proj1 (plain_prints e P)). auto.
  - destruct v as [|c v]; cbn [app] in F |- *.
    + cut_. cbn [map prints app toklits]. rewrite Q, str_eqb_refl. f_equal. auto.
    + cut_. cbn [map prints app toklits]. rewrite Q. destruct (str_eqb (c :: v) q) eqn:E; [apply str_eqb_eq in E; congruence|]. f_equal. auto.
Qed.
Lemma lseq_semi : forall es, lseq es -> ~ In ";" (map prints es) /\ forall ss, Forall2 reads es ss -> ~ In ";" ss.
Proof.
  intros es H. induction H as [|e r P H [IH1 IH2]|q v r Q V V2 H [IH1 IH2]].
  - split; [intros []|intros ss F; inversion F; intros []].
  - split; [intros [E|E]; auto; apply (proj2 (plain_prints e P)); auto|]. intros ss F. inversion F as [|? s ? rs R F']; subst. intros [E|E]; [apply (proj2 (plain_reads e s P R)); auto|apply (IH2 rs); auto].
  - assert (X : q <> ";") by (intros ->; discriminate Q). split.
    + destruct v; cbn [app map prints In]; intuition.
    + intros ss F. destruct v; cbn [app] in F; cut_; cbn [In]; intros Y; intuition; eapply IH2; eauto.
Qed.
Lemma lseq_app : forall a b, lseq a -> lseq b -> lseq (a ++ b).
Proof. intros a b H. induction H; intros K; auto; [constructor; auto|]. cbn [app]. rewrite <- app_assoc. cbn [app]. apply ls_lit; auto. Qed.
Lemma lseq_listed : forall l, (forall x, In x l -> lseq x) -> lseq (listed l).
Proof.
  induction l as [|x l IH]; intros H; [constructor|]. destruct l as [|y l]; [apply H; left; auto|].
  change (lseq (x ++ Name "," :: listed (y :: l))). apply lseq_app; [apply H; left; auto|]. constructor; [reflexivity|]. apply IH. intros z Z. apply H. right. auto.
Qed.
Lemma lseq_map : forall l, (forall x, In x l -> lseq (entries x)) -> lseq (listed (map entries l)).
Proof. intros l H. apply lseq_listed. intros x X. apply in_map_iff in X as (y & <- & Y). auto. Qed.
Lemma ident_plain : forall v, ident v = true -> mem (lower v) BARE = false.
Proof. intros v W. unfold ident in W. bools. apply word_plain. auto. Qed.
Lemma ident_plain2 : forall v, ident v = true -> mem (lower (lower v)) BARE = false.
Proof. intros v W. rewrite lower_idem. apply ident_plain. auto. Qed.
Lemma known_plain : forall v l, In v l -> forallb (fun v => negb (mem (lower v) BARE)) l = true -> mem (lower v) BARE = false.
Proof. intros v l I F. rewrite forallb_forall in F. apply F in I. apply negb_true_iff. auto. Qed.
Lemma words_plain : forall s, (forall w, In w (split 32 (lower s)) -> mem (lower w) BARE = false) -> lseq (words s).
Proof. intros s. unfold words. generalize (split 32 (lower s)). intros l. induction l as [|w l IH]; intros H; constructor; [apply H; left; auto|]. apply IH. intros. apply H. right. auto. Qed.
Lemma float_plain : forall t, float_ok t = true -> mem (lower t) BARE = false.
Proof.
  intros t W. unfold float_ok in W. bools. destruct (mem _ BARE) eqn:E; auto. apply quote_not_word, mem_In in E. cbn in E. destruct E as [<-|[<-|[<-|[<-|[]]]]]; discriminate.
Qed.
Lemma lit_seq : forall v q, mem q QUOTES && content v = true -> lseq (Name q :: match v with [] => [] | _ => [Name v] end ++ [Name q]).
Proof.
  intros v q W. bools. apply ls_lit; [apply mem_In; auto| |intros ->; discriminate|constructor]. intros ->. match goal with V : content q = true, Q : In q QUOTES |- _ => cbn in Q; destruct Q as [<-|[<-|[<-|[]]]]; discriminate V end.
Qed.

Definition LS (n : node) : Prop := forall c, wf c n = true -> lseq (entries n).
Section L.
Variable n : node.
Hypothesis IH : forall x, size x < size n -> LS x.
Lemma l_ch : forall c x, In x (children n) -> wf c x = true -> lseq (entries x).
Proof. intros c x I W. apply (IH x) with c; auto. apply children_size; auto. Qed.
Lemma l_arg : forall x, size x < size n -> argok x = true -> lseq (entries x).
Proof. intros x S W. unfold argok in W. destruct (is_sel x); bools; eapply IH; eauto. Qed.
Lemma l_argsz : forall l, (forall x, In x l -> size x < size n) -> forallb argok l = true -> lseq (listed (map entries l)).
Proof. intros l S W. apply lseq_map. intros x X. rewrite forallb_forall in W. apply l_arg; auto. Qed.
Lemma l_args : forall l, incl l (children n) -> forallb argok l = true -> lseq (listed (map entries l)).
Proof. intros l S. apply l_argsz. intros. apply children_size; auto. Qed.
Lemma l_uptos : forall k l, incl l (children n) -> forallb (upto k) l = true -> lseq (listed (map entries l)).
Proof. intros k l S W. apply lseq_map. intros x X. rewrite forallb_forall in W. specialize (W x X). bools. eapply IH; eauto. apply children_size; auto. Qed.
Lemma l_items : forall l, incl l (children n) -> itemsok l = true -> lseq (listed (map entries l)).
Proof.
  intros l S W. apply lseq_map. intros x X. unfold itemsok in W. bools. match goal with V : forallb itemok _ = true |- _ => rewrite forallb_forall in V; specialize (V x X) end. destruct x; try discriminate.
  cbn [itemok] in *. bools. cbn [entries]. apply lseq_app.
  - apply (IH x) with Ex; auto. eapply Nat.lt_trans; [|apply children_size, S, X]. apply children_size. left; auto.
  - destruct asc; [repeat constructor|]. destruct desc; repeat constructor.
Qed.
Lemma l_als : forall a, alsok a = true -> lseq (match a with inl t => [Name t] | inr x => entries x end).
Proof.
  intros a A. destruct a as [t|x]; [constructor; [apply ident_plain; auto|constructor]|]. cbn [alsok] in A. bools. destruct x; try discriminate. cbn [entries]. apply lit_seq. cbn [wf] in *. destruct prefix; try discriminate. auto.
Qed.
End L.
Ltac ls1 := repeat first [apply ls_nil | apply lseq_app | apply ls_one; [first [reflexivity | apply ident_plain2; assumption | apply ident_plain; assumption | cbn [plain]; lia | idtac]|] | assumption].
Ltac lkid IH := first [eapply (l_ch _ IH); [child|eassumption] | apply (l_args _ IH); [intros ? ?; child|assumption] | eapply (l_uptos _ IH); [intros ? ?; child|eassumption] | apply (l_items _ IH); [intros ? ?; child|assumption]].
Ltac lm IH := repeat first [progress ls1 | lkid IH].
Lemma ls_exp : forall n, (forall x, size x < size n -> LS x) -> wf Ex n = true -> lseq (entries n).
Proof.
  intros n IH W. destruct n; try discriminate W.
  - rewrite wf_fun in W. bools. cbn [entries]. unfold round. lm IH.
  - rewrite wf_cast in W. bools. cbn [entries]. unfold round. lm IH.
  - rewrite wf_count in W. bools. cbn [entries]. unfold round. destruct distinct; lm IH.
  - rewrite wf_arrayagg in W. bools. cbn [entries]. unfold round. lm IH.
    + destruct distinct; lm IH.
    + destruct ignore_nulls; lm IH.
    + destruct order; lm IH.
    + destruct limit; [|ls1]. cbn [oall] in *. match goal with V : (0 <? _)%Z = true |- _ => apply Z.ltb_lt in V end. ls1.
  - rewrite wf_filtered in W. bools. cbn [entries]. unfold round. lm IH.
  - rewrite wf_analytics in W. bools. cbn [entries]. unfold round. lm IH.
    + destruct partition; [|ls1]. cbn [oall] in *. bools. lm IH.
    + destruct order; lm IH.
    + destruct frame as [[rr f]|]; [|ls1]. cbn [oall] in *. unfold frameok in *. cbn [fst snd] in *. bools. ls1; [eapply known_plain; [eassumption|reflexivity]|].
      apply words_plain. intros w Wd. rewrite split_lower in Wd. apply in_map_iff in Wd as (u & <- & U). match goal with V : forallb _ (split 32 f) = true |- _ => rewrite forallb_forall in V; specialize (V u U) end. bools. rewrite lower_idem. apply word_plain. auto.
  - cbn [entries]. ls1. cbn [plain wf] in *. apply orb_true_iff in W as [W|W]; [apply ident_plain; auto|]. apply str_eqb_eq in W. subst. reflexivity.
  - rewrite wf_chained in W. bools. cbn [entries]. lm IH.
  - rewrite wf_datepart in W. bools. cbn [entries]. lm IH. eapply known_plain; [eassumption|reflexivity].
  - cbn [entries]. apply lit_seq. cbn [wf] in *. destruct prefix; try discriminate. auto.
  - cbn [entries]. destruct (_ <? _)%Z eqn:E; [apply Z.ltb_lt in E|apply Z.ltb_ge in E]; ls1.
  - cbn [entries wf] in *. rename text into t.
    assert (X : (exists u, t = 45%N :: u) \/ (match t with 45%N :: t => t | _ => t end = t /\ match t with 45%N :: t => [Name "-"; Name t] | _ => [Name t] end = [Name t])).
    { destruct t as [|c t]; auto. destruct c as [|c]; auto. do 6 (destruct c as [c|c|]; auto). eauto. }
    destruct X as [(u & ->)|[E ->]]; [|rewrite E in W]; ls1; apply float_plain; auto.
  - cbn [entries]. ls1.
  - cbn [entries]. destruct b; ls1.
  - rewrite wf_paren in W. cbn [entries]. unfold round. lm IH.
  - rewrite wf_array in W. cbn [entries]. unfold square. lm IH.
  - rewrite wf_alias in W. bools. cbn [entries]. lm IH; [destruct with_as; ls1|]. unfold aliasok in *. destruct alias as [t|x]; destruct with_as; bools; try discriminate; lm IH.
  - rewrite wf_index in W. bools. cbn [entries]. unfold square. lm IH.
  - rewrite wf_arith in W. bools. cbn [entries]. lm IH. eapply known_plain; [eassumption|reflexivity].
  - rewrite wf_bitwise in W. bools. cbn [entries]. lm IH. eapply known_plain; [eassumption|reflexivity].
  - rewrite wf_cond in W. bools. cbn [entries]. destruct (str_eqb (lower pred) "between") eqn:B.
    + destruct n2; try discriminate. bools. subst.
      assert (M : mem pred ["is not"; "not in"] = false) by (apply mem_false; intros [<-|[<-|[]]]; discriminate B). rewrite M. cbn [entries]. lm IH; try (eapply IH; [cbn [size]; lia|eassumption]).
      cbn [plain]. rewrite B. reflexivity.
    + bools. destruct (mem pred ["is not"; "not in"]) eqn:M.
      * lm IH. apply mem_In in M. destruct M as [<-|[<-|[]]]; vm_compute; repeat constructor.
      * lm IH. cbn [plain]. match goal with V : _ || _ = true |- _ => apply orb_true_iff in V as [V|V]; apply mem_In in V end; [|eapply known_plain; [eassumption|reflexivity]].
        rewrite lower_idem. eapply known_plain; [eassumption|reflexivity].
  - rewrite wf_boolc in W. bools. cbn [entries]. lm IH. eapply known_plain; [eassumption|reflexivity].
  - rewrite wf_neg in W. bools. cbn [entries]. lm IH.
  - rewrite wf_except in W. bools. cbn [entries]. unfold round. lm IH.
  - rewrite wf_replace in W. bools. cbn [entries]. unfold round. lm IH.
  - rewrite wf_case in W. bools. cbn [entries]. lm IH.
    + destruct e; [|ls1]. cbn [oall] in *. bools. lm IH.
    + assert (Q : forall q, In q whens -> size (fst q) < size (NCase e whens els) /\ size (snd q) < size (NCase e whens els)).
      { intros q I. split; apply children_size; cbn [children]; apply in_or_app; right; apply in_or_app; [left; apply in_map; auto|right; apply in_or_app; left; apply in_map; auto]. }
      match goal with V : forallb wtok whens = true |- _ => revert V end. set (k := size (NCase e whens els)) in *. clearbody k. clear - IH Q. induction whens as [|q l I]; intros V; [constructor|].
      cbn [forallb] in V. apply andb_true_iff in V as [V1 V2]. cbn [flat_map]. destruct (Q q (or_introl eq_refl)). unfold wtok in V1. bools. ls1; try (eapply IH; eassumption). apply I; auto. intros. apply Q. right. auto.
    + destruct els; [|ls1]. cbn [oall] in *. bools. lm IH.
Qed.
Lemma ls_from : forall n, (forall x, size x < size n -> LS x) -> wf Fr n = true -> lseq (entries n).
Proof.
  intros n IH W. destruct n; try discriminate W.
  - destruct args as [|f [|? ?]]; try discriminate W. change ((if is_sel f || is_wth f then wf St f else wf Fr f) = true) in W. cbn [entries map listed]. unfold round. destruct (is_sel f || is_wth f); lm IH.
  - rewrite wf_falias in W. bools. cbn [entries]. lm IH; [destruct with_as; ls1|apply l_als; auto].
  - rewrite wf_table in W. cbn [entries]. unfold square. destruct brackets; [bools; lm IH|]. unfold tableok in W. apply andb_true_iff in W as [W _]. lm IH.
  - rewrite wf_unnest in W. apply andb_true_iff in W as [W W2]. apply andb_true_iff in W as [W W1]. cbn [entries]. apply lseq_app.
    + destruct n; try discriminate W; cbn [unnestok] in W.
      * bools. subst. cbn [entries]. unfold round. ls1. apply (l_argsz _ IH); auto. intros z Z. cbn [size]. apply sizes_In in Z. lia.
      * destruct n; try discriminate W. bools. subst. cbn [entries]. unfold round. ls1; [apply (l_argsz _ IH); auto; intros z Z; cbn [size]; apply sizes_In in Z; lia|destruct with_as; ls1|apply l_als; auto].
    + destruct with_offset; [|ls1]. destruct alias; [|ls1]. bools. destruct with_offset_as; ls1.
  - rewrite wf_join in W. bools. cbn [entries]. match goal with V : joinok _ _ _ _ = true |- _ => unfold joinok in V; rename V into J end. lm IH.
    + destruct (str_eqb ty ",") eqn:E; [ls1|]. apply words_plain. intros w Wd. destruct (mem ty ["CROSS JOIN"; ","]) eqn:M.
      * apply mem_In in M. destruct M as [<-|[<-|[]]]; [|discriminate E]. cbn in Wd. destruct Wd as [<-|[<-|[]]]; reflexivity.
      * unfold join_words in J. bools. match goal with V : forallb _ (split 32 (lower ty)) = true |- _ => rewrite forallb_forall in V; specialize (V w Wd) end. clear Wd. bools. eapply known_plain; [eassumption|reflexivity].
    + destruct on_; [|ls1]. destruct (mem ty _); [destruct using_; discriminate J|]. bools. destruct using_; try discriminate. unfold condok in *. bools. lm IH.
    + destruct using_; [|ls1]. destruct (mem ty _); [destruct on_; discriminate J|]. bools. destruct on_; try discriminate. unfold condok in *. bools. lm IH.
  - rewrite wf_combined in W. bools. cbn [entries]. lm IH.
    + apply words_plain. intros w Wd. unfold set_words in *. bools. match goal with V : forallb _ (split 32 (lower op)) = true |- _ => rewrite forallb_forall in V; specialize (V w Wd) end. clear Wd. bools. eapply known_plain; [eassumption|reflexivity].
    + destruct (is_sel n2); bools; lm IH.
Qed.
Lemma ls_stmt : forall n, (forall x, size x < size n -> LS x) -> wf St n = true -> lseq (entries n).
Proof.
  intros n IH W. destruct n; try discriminate W.
  - rewrite wf_select in W. bools. subst. cbn [entries]. unfold round. lm IH.
    + destruct sel_all; [ls1|]. destruct sel_distinct; [|ls1]. destruct distinct_on; [|ls1]. cbn [donok] in *. bools. lm IH.
    + destruct from_; lm IH.
    + destruct where_; [|ls1]. cbn [oall] in *. unfold condok in *. bools. lm IH.
    + destruct group as [[[l r] e]|]; [|ls1]. cbn [groupok] in *. bools. destruct e, r; lm IH.
    + destruct having; [|ls1]. cbn [oall] in *. unfold condok in *. bools. lm IH.
    + destruct order; lm IH.
    + destruct limit as [[[|] [l|]]|]; cbn [limitok] in *; try discriminate; bools; lm IH.
    + destruct offset; [|ls1]. cbn [oall] in *. bools. lm IH.
  - rewrite wf_with in W. bools. cbn [entries]. lm IH. apply lseq_listed. intros x X. apply in_map_iff in X as (q & <- & Q). match goal with V : forallb wqok _ = true |- _ => rewrite forallb_forall in V; specialize (V q Q) end. unfold wqok in *. bools. unfold round. ls1.
    eapply (l_ch _ IH); [|eassumption]. cbn [children]. apply in_or_app. left. apply in_map. auto.
Qed.
Lemma ls_all : forall n, LS n.
Proof.
  intros n. remember (size n) as k eqn:E. revert n E. induction k as [k IH] using (well_founded_induction lt_wf). intros n -> c.
  assert (H : forall m, size m < size n -> LS m) by (intros m M; eapply IH; eauto).
  destruct c; auto using ls_exp, ls_from, ls_stmt.
Qed.

(** ** Literals of a text *)
Lemma qs_in : forall q, In q [39; 34; 96]%N -> mem [q] QUOTES = true.
Proof. intros q Q. cbn in Q. destruct Q as [<-|[<-|[<-|[]]]]; reflexivity. Qed.
Lemma seg_tokens : forall a t, quote_free a -> tame a -> In t (tokens_of a) -> mem t QUOTES = false.
Proof.
  intros a t Q Ta I. destruct (mem t QUOTES) eqn:E; auto. exfalso.
  assert (X : concat (tokens_of a) = filter (fun c => negb (N.eqb c 32 || N.eqb c 10 || N.eqb c 9)) a).
  { unfold tokens_of. destruct a; auto. apply tokens_exact; auto. }
  assert (Y : forall c, In c t -> In c a).
  { intros c C. assert (Z : In c (concat (tokens_of a))) by (apply in_concat; eauto). rewrite X in Z. apply filter_In in Z as [Z _]. auto. }
  apply mem_In in E. cbn in E. destruct E as [<-|[<-|[<-|[]]]]; match goal with |- False => eapply (Q _ (Y _ (or_introl eq_refl))); cbn; auto end.
Qed.
Lemma toklits_skip : forall a r, (forall t, In t a -> mem t QUOTES = false) -> toklits (a ++ r) = toklits r.
Proof. induction a as [|t a IH]; intros r H; auto. cbn [app toklits]. rewrite H by (left; auto). apply IH. intros. apply H. right. auto. Qed.
Lemma tame_end : forall a c b, tame (a ++ c :: b) -> (In c [39; 34; 96]%N \/ blank c \/ separator c) -> tame a.
Proof.
  intros a c b T C x y E. subst a. destruct (T x (y ++ c :: b)) as (d & z & D1 & D2 & D3 & D4); [rewrite <- app_assoc; reflexivity|].
  destruct y as [|e y]; cbn [app] in D1; injection D1 as E1 E2; subst; [exfalso; tauto|]. exists d, y. auto.
Qed.
Lemma tame_after : forall a b, tame (a ++ b) -> tame b.
Proof. intros a b T x y E. subst b. apply (T (a ++ x) y). rewrite app_assoc. reflexivity. Qed.
Lemma segs_tame : forall l a, tame (a ++ flat_lits l) -> (forall x, In x l -> In (fst (fst x)) [39; 34; 96]%N) -> tame a /\ forall x, In x l -> tame (snd x).
Proof.
  induction l as [|[[q c] b] l IH]; intros a T Q; [cbn [flat_lits flat_map] in T; rewrite app_nil_r in T; split; auto; intros x []|].
  unfold flat_lits in *. cbn [flat_map] in T. assert (Q1 := Q _ (or_introl eq_refl)). cbn [fst snd app] in *. split; [eapply tame_end; [exact T|auto]|].
  assert (T2 : tame (b ++ flat_lits l)).
  { apply tame_after with ([q] ++ c ++ [q]). apply tame_after in T. revert T. unfold flat_lits. cbn [app]. rewrite <- !app_assoc. cbn [app]. auto. }
  destruct (IH b T2) as [A B]; [intros x X; apply Q; right; auto|]. intros x [<-|X]; auto.
Qed.
Lemma marked_lits : forall m, well_quoted m -> tame (flat m) -> flat m <> [] ->
  toklits (fst (to_tokens (flat m))) = map (fun l => ([fst l], snd l)) (literals m).
Proof.
  intros [a l] [Qa W] Ta NE. rewrite literals_verbatim by (try split; auto). cbn [fst snd] in *. unfold literals. cbn [snd].
  assert (QQ : forall x, In x l -> In (fst (fst x)) [39; 34; 96]%N).
  { intros [[q c] b] X. rewrite Forall_forall in W. apply W in X. destruct X as [X _]. auto. }
  destruct (segs_tame l a Ta QQ) as [T1 T2]. rewrite toklits_skip by (intros; eapply seg_tokens; eauto).
  assert (V : forall x, In x l -> ~ In (fst (fst x)) (snd (fst x)) /\ quote_free (snd x)).
  { intros [[q c] b] X. rewrite Forall_forall in W. assert (Y := W _ X). destruct Y as (_ & Y1 & Y2). split; auto. rewrite Forall_forall in Y2. apply (Y2 _ X). }
  clear W Ta NE Qa T1. induction l as [|[[q c] b] l IH]; auto. cbn [flat_map map literal_tokens fst snd].
  destruct (V _ (or_introl eq_refl)) as [V1 V2]. assert (Q1 := QQ _ (or_introl eq_refl)). assert (T1 := T2 _ (or_introl eq_refl)). cbn [fst snd] in *.
  assert (R : toklits (tokens_of b ++ flat_map literal_tokens l) = map (fun l => ([fst l], snd l)) (map fst l)).
  { rewrite toklits_skip by (intros; eapply seg_tokens; eauto). apply IH; intros; [apply QQ|apply T2|apply V]; right; auto. }
  destruct c as [|d c]; cbn [app toklits]; rewrite qs_in by auto.
  - rewrite str_eqb_refl. f_equal. rewrite <- R. reflexivity.
  - destruct (str_eqb (d :: c) [q]) eqn:E; [apply str_eqb_eq in E; exfalso; apply V1; rewrite E; left; auto|]. f_equal. rewrite <- R. reflexivity.
Qed.
Lemma T_marked : forall s ts, T s ts -> exists m, flat m = s /\ well_quoted m /\ tame (flat m).
Proof.
  intros s ts (rs & L & _). assert (X := lexes_tame _ _ L). destruct L as (a & l & E & Q & Ta & H & _). exists (a, l).
  assert (F : flat (a, l) = s) by (rewrite E; reflexivity). rewrite F. split; auto. split; auto. split; [exact Q|]. apply lit_ok_all in H. exact H.
Qed.
Lemma lits_stmt : forall n, statement n = true -> forall ss, Forall2 reads (entries n) ss -> toklits ss = toklits (map prints (entries n)).
Proof.
  intros n W ss H. assert (SH := GramAlike.statement_shape n W). assert (Y := ls_all _ St W). destruct (GramAlike.semi_cases n SH) as [E|E].
  - rewrite <- E in Y. assert (X := lseq_lits _ Y [] ss H). rewrite !app_nil_r in X. auto.
  - assert (EN : entries n = entries (with_semi false n) ++ [Name ";"]) by (rewrite E at 1; apply entries_semi; auto). rewrite EN in H |- *. apply Forall2_app_inv_l in H as (s1 & s2 & H1 & H2 & ->). cut_. rewrite map_app. apply lseq_lits; auto.
Qed.
(** the closing semicolon, and no other *)
Lemma semi_stmt : forall n, statement n = true -> forall ss, Forall2 reads (entries n) ss ->
  exists r r', ~ In ";" r /\ ~ In ";" r' /\ ((ss = r /\ map prints (entries n) = r') \/ (ss = r ++ [";"] /\ map prints (entries n) = r' ++ [";"])).
Proof.
  intros n W ss H. assert (SH := GramAlike.statement_shape n W). assert (Y := ls_all _ St W). destruct (GramAlike.semi_cases n SH) as [E|E].
  - rewrite <- E in Y. destruct (lseq_semi _ Y) as [A B]. exists ss, (map prints (entries n)). auto.
  - destruct (lseq_semi _ Y) as [A B]. assert (EN : entries n = entries (with_semi false n) ++ [Name ";"]) by (rewrite E at 1; apply entries_semi; auto). rewrite EN in H |- *. apply Forall2_app_inv_l in H as (s1 & s2 & H1 & H2 & ->). cut_. rewrite map_app. exists s1, (map prints (entries (with_semi false n))). auto 6.
Qed.
Theorem literals_kept : forall n m, statement n = true -> well_quoted m -> tame (flat m) ->
  Forall2 reads (entries n) (fst (to_tokens (flat m))) ->
  exists m', format_sql (flat m) = Ok (flat m') /\ well_quoted m' /\ tame (flat m') /\ literals m' = literals m.
Proof.
  intros n m W Q Ta H.
  assert (NE : flat m <> []).
  { intros E. rewrite E in H. change (fst (to_tokens [])) with (fst (to_tokens "")) in H. assert (Z : hd "x" (fst (to_tokens "")) = [] \/ fst (to_tokens "") = []) by (vm_compute; auto).
    revert Z H. generalize (fst (to_tokens "")). intros l Z H. clear - W H Z. unfold statement in W. destruct n; try discriminate W; cbn [entries] in H; inversion H as [|? y ? ? A]; subst; cbn [hd] in Z; destruct Z as [-> |Z]; discriminate. }
  assert (TT : to_tokens (flat m) = (fst (to_tokens (flat m)), None)) by (rewrite literals_verbatim by auto; reflexivity).
  assert (F := written n (flat m) _ W TT H). destruct (printed n W) as (s & R & X & NE' & _). destruct (T_marked s _ X) as (m' & Em & Q' & Ta').
  exists m'. rewrite F, Em. split; auto. split; auto. split; [rewrite <- Em; auto|].
  assert (L1 := lits_stmt _ W _ H). rewrite marked_lits in L1 by auto.
  assert (L2 := marked_lits m' Q' Ta' ltac:(rewrite Em; auto)). rewrite Em, (T_tokens _ _ X NE') in L2. cbn [fst] in L2. rewrite L2 in L1. revert L1. clear. unfold literals. generalize (map fst (snd m)) (map fst (snd m')). intros l. induction l as [|[q c] l IH]; intros [|[q' c'] l'] E; try discriminate E; auto. injection E as -> -> E. f_equal. auto.
Qed.

(** ** The closing semicolon of a text *)
Lemma T_semi_inv : forall u ts, T (u ++ ";") ts -> exists r, ts = r ++ [";"].
Proof.
  intros u ts (rs & L & [Mg _]). destruct (lexes_seg _ _ L) as (pre & x & a & E & R & Qa & Ta & P & _).
  assert (A : exists a', a = a' ++ ";").
  { destruct (exists_last (l := a)) as (a' & c & ->).
    - intros ->. rewrite app_nil_r in E. destruct P as [->|(p & q & -> & Q)]; [destruct u; discriminate|]. apply app_inj_tail in E as [_ <-]. cbn in Q. intuition discriminate.
    - exists a'. rewrite app_assoc in E. apply app_inj_tail in E as [_ <-]. auto. }
  destruct A as (a' & ->). assert (X : raw0 (a' ++ ";") = raw0 a' ++ [";"]).
  { assert (Y : tame ";") by (apply plainb_ok; reflexivity). apply (raw0_hd a' 59%N []); auto. eapply tame_end; [exact Ta|right; right; cbn; auto 20]. }
  rewrite X in R. exists (merged (x ++ raw0 a')). rewrite <- Mg, R, app_assoc, merged_app by (apply inertb_ok; reflexivity). reflexivity.
Qed.
Theorem semicolon_kept : forall n q ts, statement n = true -> to_tokens q = (ts, None) -> Forall2 reads (entries n) ts ->
  exists t ts', format_sql q = Ok t /\ to_tokens t = (ts', None)
  /\ ((exists u, t = u ++ ";") <-> (exists r, ts = r ++ [";"])) /\ ~ In ";" (removelast ts').
Proof.
  intros n q ts W TT H. destruct (printed n W) as (s & R & X & NE & _). exists s, (map prints (entries n)).
  split; [rewrite (written n q ts); auto|]. split; [apply T_tokens; auto|].
  destruct (semi_stmt n W ts H) as (r & r' & A & B & [[-> E]|[-> E]]).
  - split.
    + split; intros (u & U).
      * exfalso. apply B. rewrite <- E. rewrite U in X. destruct (T_semi_inv _ _ X) as (z & Z). rewrite Z. apply in_or_app. right. left. auto.
      * exfalso. apply A. rewrite U. apply in_or_app. right. left. auto.
    + rewrite E. intros I. apply B. revert I. clear. induction r' as [|a l IH]; auto. cbn [removelast]. destruct l; [intros []|]. intros [->|I]; [left; auto|right; auto].
  - split.
    + split; [eauto|]. intros _. assert (SH := GramAlike.statement_shape n W). destruct (GramAlike.semi_cases n SH) as [F|F].
      * exfalso. assert (Y := ls_all _ St W). unfold statement in W. rewrite <- F in Y. destruct (lseq_semi _ Y) as [C _]. apply C. rewrite E. apply in_or_app. right. left. auto.
      * unfold transform in R. rewrite F, GramAlike.render_semi in R by auto. destruct (render Tr (with_semi false n)) as [z|]; [|discriminate]. cbn [rbind] in R. injection R as <-. eauto.
    + rewrite E, removelast_last. auto.
Qed.
