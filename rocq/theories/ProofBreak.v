(** When conditions and calls are broken over lines. *)
From Verif Require Import PyStr Lib AstLib Ast Grammar GramTok GramExpr Render RenderEq LexText GramUp GramText SpecLayout ProofLayout GramNest.
Local Open Scope str_scope.
Local Open Scope list_scope.

(** ** Conditions *)
Definition simple (text : node -> str) (x : node) : Prop :=
  transform x = Ok (text x) /\ ~ In 10%N (text x) /\ (forall args, x = NParen args -> exists a, args = [a]).
Lemma leaf_nl : forall text x, is_boolc x = false -> simple text x -> render NL x = Ok (text x).
Proof.
  intros text x B (E & N & P). unfold transform in E. destruct (regular x) eqn:G; [rewrite render_regular, E by auto; auto|].
  destruct x; try discriminate G; try discriminate B.
  - rewrite render_NSelect in *. exact E.
  - rewrite render_NWith in *. exact E.
  - destruct (P args eq_refl) as (a & ->). rewrite render_NParen in *. cbv zeta in *. cbn [rmap] in E. destruct (is_select a) eqn:S.
    + exfalso. destruct (render Sub a) as [t|]; [|discriminate E]. cbn [rbind join] in E. apply Ok_inj in E. apply N. rewrite <- E. cbn. right. left. auto.
    + rewrite sub_tr in E by auto. destruct (render Tr a) as [t|]; [|discriminate E]. cbn [rbind join] in *. apply Ok_inj in E. rewrite <- E in N. destruct (has_nl t) eqn:H; [|exact (f_equal Ok E)].
      exfalso. apply N. apply in_or_app. right. apply in_or_app. left. apply has_In. auto.
  - rewrite render_NAlias in *. exact E.
Qed.
Lemma leaf_one : forall text x, is_boolc x = false -> one_line text x = text x /\ line_each text x = [text x] /\ operands x = [x].
Proof. intros text x B. destruct x; try discriminate B; auto. Qed.
Lemma bool_ind : forall P : node -> Prop, (forall x, is_boolc x = false -> P x) -> (forall op l r, P l -> P r -> P (NBoolC op l r)) -> forall c, P c.
Proof.
  intros P A B c. induction c as [c IH] using node_ind'. destruct (is_boolc c) eqn:E; auto. destruct c; try discriminate E. apply B; apply IH; [left|right; left]; auto.
Qed.
Lemma each_nonnil : forall text c, line_each text c <> [].
Proof.
  intros text. apply bool_ind.
  - intros x B E. rewrite (proj1 (proj2 (leaf_one text x B))) in E. discriminate E.
  - intros op l r A _ E. cbn [line_each] in E. apply app_eq_nil in E as [E _]. auto.
Qed.
Lemma join_snoc : forall sep a b, a <> [] -> b <> [] -> join sep (a ++ b) = join sep a ++ sep ++ join sep b.
Proof.
  intros sep a b A B. induction a as [|x a IH]; [congruence|]. destruct a as [|y a].
  - destruct b as [|z b]; [congruence|]. reflexivity.
  - change (x ++ sep ++ join sep ((y :: a) ++ b) = (x ++ sep ++ join sep (y :: a)) ++ sep ++ join sep b). rewrite IH by discriminate. rewrite <- !app_assoc. auto.
Qed.
Lemma each_join : forall text op l r, join nl (line_each text (NBoolC op l r)) = join nl (line_each text l) ++ nl ++ upper op ++ " " ++ join nl (line_each text r).
Proof.
  intros text op l r. cbn [line_each]. assert (N := each_nonnil text r). destruct (line_each text r) as [|x rest]; [congruence|].
  rewrite join_snoc by (try apply each_nonnil; discriminate). f_equal. f_equal. destruct rest as [|l0 rest]; [cbn [join]; rewrite ?app_nil_r; auto|].
  change ((upper op ++ " " ++ x) ++ nl ++ join nl (l0 :: rest) = upper op ++ " " ++ x ++ nl ++ join nl (l0 :: rest)). rewrite <- !app_assoc. auto.
Qed.
Lemma one_line_eq : forall text op l r, one_line text (NBoolC op l r) = one_line text l ++ " " ++ upper op ++ " " ++ one_line text r.
Proof. reflexivity. Qed.
Lemma each_length : forall text c, length (join nl (line_each text c)) = length (one_line text c).
Proof.
  intros text. apply bool_ind.
  - intros x B. destruct (leaf_one text x B) as (-> & -> & _). auto.
  - intros op l r A B. rewrite each_join, one_line_eq, !app_length, A, B. auto.
Qed.
Lemma cond_nl : forall text c, (forall x, In x (operands c) -> simple text x) ->
  (exists t, transform c = Ok t /\ length t = length (one_line text c) /\ (length t < 88 \/ is_boolc c = false -> t = one_line text c))
  /\ render NL c = Ok (join nl (line_each text c)).
Proof.
  intros text c. induction c as [x B|op l r A B] using bool_ind.
  - intros H. destruct (leaf_one text x B) as (E1 & E2 & E3). rewrite E3 in H. assert (S := H x (or_introl eq_refl)). rewrite E1, E2. split.
    + exists (text x). destruct S as (S & _). auto.
    + apply leaf_nl; auto.
  - intros H. cbn [operands] in H. destruct A as ((tl & A1 & A2 & A3) & A4); [intros; apply H, in_or_app; auto|]. destruct B as ((tr & B1 & B2 & B3) & B4); [intros; apply H, in_or_app; auto|].
    unfold transform in *. rewrite !render_NBoolC, A1, B1, A4, B4. cbn [rbind]. rewrite andb_true_r, andb_false_r. cbn [rbind finish]. rewrite each_join. split; auto.
    rewrite one_line_eq. unfold DEFAULT_LINE_LENGTH. destruct (Nat.ltb_spec (length (tl ++ " " ++ upper op ++ " " ++ tr)) 88) as [L|L]; cbn [rbind].
    + eexists. split; [reflexivity|]. rewrite !app_length in L. rewrite !app_length. unfold nl in *; cbn [length] in L |- *. split; [lia|]. intros _. rewrite A3, B3 by lia. auto.
    + eexists. split; [reflexivity|]. rewrite !app_length in L. rewrite !app_length. rewrite !each_length. unfold nl in *; cbn [length] in L |- *. split; [lia|]. intros [C|C]; [lia|discriminate C].
Qed.
(** the one-line form does not need simple operands *)
Lemma cond_short : forall text c, (forall x, In x (operands c) -> transform x = Ok (text x)) -> length (one_line text c) < 88 -> transform c = Ok (one_line text c).
Proof.
  intros text c. induction c as [x B|op l r A B] using bool_ind.
  - intros H _. destruct (leaf_one text x B) as (E1 & _ & E3). rewrite E3 in H. rewrite E1. apply H. left. auto.
  - intros H L. cbn [operands] in H. rewrite one_line_eq in *. unfold transform in *. rewrite render_NBoolC.
    assert (L' := L). rewrite !app_length in L'. rewrite A, B by (try (intros; apply H, in_or_app; auto); lia). cbn [rbind]. apply Nat.ltb_lt in L. unfold DEFAULT_LINE_LENGTH. rewrite L. auto.
Qed.
Lemma cond_long : forall text op l r, let c := NBoolC op l r in (forall x, In x (operands c) -> simple text x) -> 88 <= length (one_line text c) ->
  transform c = Ok (join nl (line_each text c)).
Proof.
  intros text op l r c H L. unfold c in *. destruct (cond_nl text _ H) as (_ & X). cbn [operands] in H.
  destruct (cond_nl text l) as ((tl & A1 & A2 & A3) & A4); [intros; apply H, in_or_app; auto|]. destruct (cond_nl text r) as ((tr & B1 & B2 & B3) & B4); [intros; apply H, in_or_app; auto|].
  unfold transform in *. rewrite render_NBoolC, A1, B1, A4, B4. cbn [rbind]. rewrite one_line_eq in L. unfold DEFAULT_LINE_LENGTH.
  assert (N : (length (tl ++ " " ++ upper op ++ " " ++ tr) <? 88) = false) by (apply Nat.ltb_ge; rewrite !app_length in *; unfold nl in *; cbn [length] in *; lia). rewrite N. cbn [andb rbind finish]. rewrite each_join. auto.
Qed.
Lemma lines_join : forall l, Forall (fun x => ~ In 10%N x) l -> l <> [] -> lines (join nl l) = l.
Proof.
  intros l F N. induction F as [|x l H F IH]; [congruence|]. destruct l as [|y l].
  - cbn [join]. apply lines_none. apply has_false. auto.
  - change (lines (x ++ nl ++ join nl (y :: l)) = x :: y :: l). rewrite lines_nl, lines_none, IH by (try discriminate; apply has_false; auto). auto.
Qed.
Lemma upper_nl : forall s, In 10%N (upper s) -> In 10%N s.
Proof.
  induction s as [|c s IH]; auto. intros H. cbn [upper map] in H. destruct H as [H|H]; [|right; auto]. left.
  unfold upper_c, is_lower_c in H. destruct (_ && _)%bool eqn:E in H; [|auto]. apply andb_true_iff in E as [A B]. apply N.leb_le in A, B. lia.
Qed.
Lemma each_incl : forall text c x, In x (line_each text c) -> incl x (one_line text c).
Proof.
  intros text c. induction c as [x B|op l r A B] using bool_ind; intros y I.
  - destruct (leaf_one text x B) as (E1 & E2 & _). rewrite E2 in I. rewrite E1. destruct I as [<-|[]]. apply incl_refl.
  - rewrite one_line_eq. cbn [line_each] in I. apply in_app_or in I as [I|I].
    + intros z Z. apply in_or_app. left. eapply A; eauto.
    + destruct (line_each text r) as [|w rest]; [destruct I|]. destruct I as [<-|I].
      * intros z Z. apply in_app_or in Z as [Z|Z]; [apply in_or_app; right; apply in_or_app; right; apply in_or_app; left; auto|].
        apply in_app_or in Z as [Z|Z]; [apply in_or_app; right; apply in_or_app; left; auto|]. repeat (apply in_or_app; right). eapply B; [left; reflexivity|auto].
      * intros z Z. repeat (apply in_or_app; right). eapply B; [right; exact I|auto].
Qed.
Lemma operand_incl : forall text c x, In x (operands c) -> incl (text x) (one_line text c).
Proof.
  intros text c. induction c as [x B|op l r A B] using bool_ind; intros y I.
  - destruct (leaf_one text x B) as (E1 & _ & E3). rewrite E3 in I. rewrite E1. destruct I as [<-|[]]. apply incl_refl.
  - rewrite one_line_eq. cbn [operands] in I. apply in_app_or in I as [I|I]; intros z Z.
    + apply in_or_app. left. eapply A; eauto.
    + repeat (apply in_or_app; right). eapply B; eauto.
Qed.
Section C.
Variables (text : node -> str) (op : str) (l r : node).
Let c := NBoolC op l r.
Hypothesis texts : forall x, In x (operands c) -> transform x = Ok (text x).
Hypothesis args1 : forall args, In (NParen args) (operands c) -> length args = 1.
Hypothesis line : ~ In 10%N (one_line text c).
Lemma all_simple : forall x, In x (operands c) -> simple text x.
Proof.
  intros x I. split; [auto|]. split; [intros N; apply line; eapply operand_incl; eauto|]. intros args ->. apply args1 in I. destruct args as [|a [|? ?]]; try discriminate I. eauto.
Qed.
Lemma cond_text : transform c = Ok (if length (one_line text c) <? 88 then one_line text c else join nl (line_each text c)).
Proof. destruct (Nat.ltb_spec (length (one_line text c)) 88); [apply cond_short; auto|apply cond_long; auto using all_simple]. Qed.
Lemma each_lines : Forall (fun x => ~ In 10%N x) (line_each text c).
Proof. apply Forall_forall. intros x I N. apply line. eapply each_incl; eauto. Qed.
Definition clause_form (k : str) : list str :=
  if length (one_line text c) <? 88 then [k ++ " " ++ one_line text c] else k :: map (app " ") (line_each text c).
Lemma clause_lines : exists w, render Clause c = Ok w /\ forall k, ~ In 10%N k -> lines (k ++ w) = clause_form k.
Proof.
  assert (CT := cond_text). unfold clause_form, c in *. rewrite render_boolc by discriminate. unfold transform in CT. rewrite CT. cbn [rbind finish]. eexists. split; [reflexivity|].
  unfold clause_text. destruct (_ <? _) eqn:L; intros k K.
  - assert (N : has_nl (one_line text (NBoolC op l r)) = false) by (apply has_false; auto). rewrite N.
    apply lines_none. unfold has_nl in *. rewrite !has_app, N. apply orb_false_iff. split; auto. apply has_false. auto.
  - assert (N : has_nl (join nl (line_each text (NBoolC op l r))) = true) by (rewrite each_join; unfold has_nl; rewrite !has_app; apply orb_true_r). rewrite N.
    rewrite lines_nl, lines_none by (apply has_false; auto). assert (LJ := lines_join (line_each text (NBoolC op l r)) each_lines (each_nonnil _ _)).
    rewrite <- LJ at 2. rewrite indent_ind. rewrite <- (lines_ind 1). reflexivity.
Qed.
Definition tailed (s : str) : Prop := s = [] \/ exists y, s = nl ++ y.
Lemma tailed_app : forall a b, tailed a -> tailed b -> tailed (a ++ b).
Proof. intros a b [->|(y & ->)] B; auto. right. exists (y ++ b). rewrite <- app_assoc. auto. Qed.
Lemma tailed_lines : forall a b, tailed b -> exists z, lines (a ++ b) = lines a ++ z.
Proof. intros a b [->|(y & ->)]; [exists []; rewrite !app_nil_r; auto|]. exists (lines y). apply lines_nl. Qed.
Lemma where_lines : forall exprs all d don f g h o li off t,
  transform (NSelect exprs all d don f (Some c) g h o li off false) = Ok t ->
  exists a b, lines t = a ++ clause_form "WHERE" ++ b.
Proof.
  intros exprs all d don f g h o li off t E. destruct clause_lines as (w & W1 & W2). unfold transform in E. rewrite render_NSelect in E. cbv zeta in E.
  inv E. inv E. inv E. rewrite W1 in E. cbn [rbind] in E. inv E. inv E. inv E. inv E. inv E. rewrite app_nil_r in E. cbn [finish] in E. apply Ok_inj in E. subst t.
  assert (TG : tailed t3) by (destruct g as [[[? ?] ?]|]; [inv E3; apply Ok_inj in E3; subst t3; right; eexists; reflexivity|apply Ok_inj in E3; subst t3; left; auto]).
  assert (TH : tailed t4) by (destruct h; [inv E4; apply Ok_inj in E4; subst t4; right; eexists; reflexivity|apply Ok_inj in E4; subst t4; left; auto]).
  assert (TO : tailed t5) by (destruct o; [inv E5; inv E5; apply Ok_inj in E5; subst t5; right; eexists; reflexivity|apply Ok_inj in E5; subst t5; left; auto]).
  assert (TL : tailed t6) by (destruct li as [[[|] [?|]]|]; [| |inv E6| |]; apply Ok_inj in E6; subst t6; first [left; reflexivity | right; eexists; reflexivity]).
  assert (TF : tailed t7) by (destruct off; [inv E7; apply Ok_inj in E7; subst t7; right; eexists; reflexivity|apply Ok_inj in E7; subst t7; left; auto]).
  set (e := match t1 with [e] => _ | _ => _ end). set (rest := t3 ++ t4 ++ t5 ++ t6 ++ t7). assert (TT : tailed rest) by (unfold rest; repeat apply tailed_app; auto).
  destruct (tailed_lines ("WHERE" ++ w) rest TT) as (z & Z). exists (lines ("SELECT" ++ t0 ++ e ++ t2)), z.
  replace ("SELECT" ++ t0 ++ e ++ t2 ++ (nl ++ "WHERE" ++ w) ++ rest) with (("SELECT" ++ t0 ++ e ++ t2) ++ nl ++ ("WHERE" ++ w) ++ rest) by (rewrite <- !app_assoc; reflexivity).
  rewrite lines_nl, Z, W2; auto. cbn. intuition discriminate.
Qed.
End C.

(** ** Calls *)
Lemma call_lines : forall name args ss, ~ In 10%N name -> Forall2 (fun a s => transform a = Ok s) args ss ->
  (existsb has_nl ss = false /\ length (join ", " ss) <= 88 -> transform (NFun name args) = Ok (upper name ++ "(" ++ join ", " ss ++ ")"))
  /\ (existsb has_nl ss = true \/ 88 < length (join ", " ss) ->
      exists t, transform (NFun name args) = Ok t /\ lines t = (upper name ++ "(") :: map (app " ") (lines (join ("," ++ nl) ss)) ++ [")"]).
Proof.
  intros name args ss N F. unfold transform. rewrite render_NFun. apply rmap_Ok in F. change (rmap (render Tr) args = Ok ss) in F. rewrite F. cbn [rbind finish]. unfold call_text, DEFAULT_LINE_LENGTH. split.
  - intros [A B]. rewrite A. destruct (Nat.ltb_spec 88 (length (join ", " ss))); [lia|]. reflexivity.
  - intros H. assert (C : existsb has_nl ss || (88 <? length (join ", " ss)) = true) by (apply orb_true_iff; destruct H as [H|H]; [auto|right; apply Nat.ltb_lt; auto]). rewrite C.
    eexists. split; [reflexivity|].
    replace (upper name ++ "(" ++ nl ++ " " ++ join ("," ++ nl ++ " ") (map indent ss) ++ nl ++ ")") with ((upper name ++ "(") ++ nl ++ (spaces 1 ++ ind 1 (join ("," ++ nl) ss)) ++ nl ++ ")").
    + rewrite lines_nl, lines_nl, lines_ind. rewrite (lines_none (upper name ++ "(")); [reflexivity|]. apply has_false. intros I. apply in_app_or in I as [I|[I|[]]]; [apply N, upper_nl; auto|discriminate I].
    + rewrite <- !app_assoc. change (upper name ++ "(" ++ nl ++ " " ++ ind 1 (join ("," ++ nl) ss) ++ nl ++ ")" = upper name ++ "(" ++ nl ++ " " ++ join ("," ++ nl ++ " ") (map indent ss) ++ nl ++ ")"). enough (X : ind 1 (join ("," ++ nl) ss) = join ("," ++ nl ++ " ") (map indent ss)) by (rewrite X; auto). clear. induction ss as [|s ss IH]; auto. destruct ss as [|s' ss]; [reflexivity|].
      change (ind 1 (s ++ ("," ++ nl) ++ join ("," ++ nl) (s' :: ss)) = indent s ++ ("," ++ nl ++ " ") ++ join ("," ++ nl ++ " ") (map indent (s' :: ss))). rewrite ind_app, (ind_app 1 ("," ++ nl)), IH. reflexivity.
Qed.
