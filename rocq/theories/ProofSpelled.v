(** Proofs for C54: the formatted text is made of the pieces of the tree, in order. *)
From Verif Require Import PyStr Ast AstLib Render Lib SpecTaken ProofTaken.
Local Open Scope str_scope.
Local Open Scope list_scope.

Inductive sub : list piece -> list piece -> Prop :=
| sub_nil : sub [] []
| sub_skip p a b : sub a b -> sub a (p :: b)
| sub_keep p a b : sub a b -> sub (p :: a) (p :: b).
Lemma sub_refl : forall l, sub l l.
Proof. induction l; [constructor|apply sub_keep; auto]. Qed.
Lemma sub_none : forall l, sub [] l.
Proof. induction l; constructor; auto. Qed.
Lemma sub_app : forall a b, sub a b -> forall c d, sub c d -> sub (a ++ c) (b ++ d).
Proof. intros a b H. induction H; intros c d K; cbn [app]; auto; [apply sub_skip|apply sub_keep]; auto. Qed.
Lemma sub_taken : forall a b, sub a b -> forall ts, taken b ts -> taken a ts.
Proof.
  intros a b H. induction H; intros ts K; auto.
  - apply IHsub. clear IHsub H. remember (p :: b) as l. revert p b Heql. induction K; intros; try discriminate.
    + apply taken_skip. eauto.
    + inversion Heql; subst. clear -K. induction a0; cbn [app]; auto. apply taken_skip. auto.
  - remember (p :: b) as l. revert p b H IHsub Heql. induction K; intros; try discriminate.
    + apply taken_skip. eauto.
    + inversion Heql; subst. apply taken_read; auto.
Qed.

Lemma bare_app : forall a b, bare (a ++ b) = bare a ++ bare b.
Proof. intros. unfold bare. apply filter_app. Qed.
Lemma bare_indent : forall s, bare (indent s) = bare s.
Proof.
  intros s. unfold indent, replace_c. induction s as [|c s IH]; auto. cbn [flat_map]. rewrite bare_app, IH.
  change (c :: s) with ([c] ++ s). rewrite bare_app. f_equal. destruct (N.eqb_spec c 10); [subst|]; reflexivity.
Qed.
Lemma bare_indent2 : forall s, bare (indent2 s) = bare s.
Proof.
  intros s. unfold indent2, replace_c. induction s as [|c s IH]; auto. cbn [flat_map]. rewrite bare_app, IH.
  change (c :: s) with ([c] ++ s). rewrite bare_app. f_equal. destruct (N.eqb_spec c 10); [subst|]; reflexivity.
Qed.

Lemma spelled_app : forall a s, spelled a s -> forall b t, spelled b t -> spelled (a ++ b) (s ++ t).
Proof. intros a s H. induction H; intros b t K; cbn [app]; auto; [constructor; auto|]. rewrite <- app_assoc. constructor; auto. Qed.
Definition filler (c : N) : bool := (N.eqb c 32 || N.eqb c 10) || has c SIGNS.
Lemma spelled_filler : forall s, forallb filler s = true -> spelled [] (bare s).
Proof.
  induction s as [|c s IH]; intros H; cbn [forallb] in H; [constructor|]. apply andb_prop in H as [H1 H2]. unfold bare. cbn [filter].
  unfold filler in H1. destruct (N.eqb c 32 || N.eqb c 10); cbn [negb]; [apply IH; auto|]. constructor; [apply has_In; auto|apply IH; auto].
Qed.

(** the text is made of pieces of [l], or has a [repr] in it *)
Definition M (l : list piece) (s : str) : Prop :=
  contains REPR s = true \/ exists l', sub l' l /\ spelled l' (bare s).
Lemma contains_l : forall p a b, contains p a = true -> contains p (a ++ b) = true.
Proof. intros p a b H. apply contains_true in H as (x & y & ->). apply contains_true. exists x, (y ++ b). rewrite <- !app_assoc. auto. Qed.
Lemma contains_r : forall p a b, contains p b = true -> contains p (a ++ b) = true.
Proof. intros p a b H. apply contains_true in H as (x & y & ->). apply contains_true. exists (a ++ x), y. rewrite <- !app_assoc. auto. Qed.
Lemma M_app : forall a s b t, M a s -> M b t -> M (a ++ b) (s ++ t).
Proof.
  intros a s b t [H|(a' & A & H)]; [left; apply contains_l; auto|]. intros [K|(b' & B & K)]; [left; apply contains_r; auto|].
  right. exists (a' ++ b'). split; [apply sub_app; auto|]. rewrite bare_app. apply spelled_app; auto.
Qed.
Lemma M_fill : forall s, forallb filler s = true -> M [] s.
Proof. intros s H. right. exists []. split; [constructor|apply spelled_filler; auto]. Qed.
Lemma M_none : forall l, M l [].
Proof. intros l. right. exists []. split; [apply sub_none|constructor]. Qed.
Lemma M_pre : forall s l t, forallb filler s = true -> M l t -> M l (s ++ t).
Proof. intros. change l with ([] ++ l). apply M_app; auto. apply M_fill; auto. Qed.
Lemma M_post : forall s l t, forallb filler s = true -> M l t -> M l (t ++ s).
Proof. intros. rewrite <- (app_nil_r l). apply M_app; auto. apply M_fill; auto. Qed.
Lemma M_more : forall a b c s, M b s -> M (a ++ b ++ c) s.
Proof.
  intros a b c s [H|(l & L & H)]; [left; auto|]. right. exists l. split; auto.
  change l with ([] ++ l). apply sub_app; [apply sub_none|]. rewrite <- (app_nil_r l). apply sub_app; auto. apply sub_none.
Qed.
Lemma M_left : forall a b s, M a s -> M (a ++ b) s.
Proof. intros. apply (M_more []). auto. Qed.
Lemma M_right : forall a b s, M b s -> M (a ++ b) s.
Proof. intros. rewrite <- (app_nil_r b). apply M_more. auto. Qed.
Lemma M_bare : forall l s t, M l s -> bare t = bare s -> (contains REPR s = true -> contains REPR t = true) -> M l t.
Proof. intros l s t [H|(l' & A & H)] E C; [left; auto|]. right. exists l'. rewrite E. auto. Qed.
Lemma contains_rep : forall r s, contains REPR s = true -> contains REPR (replace_c 10 r s) = true.
Proof.
  intros r s H. apply contains_true in H as (a & b & ->). apply contains_true. exists (replace_c 10 r a), (replace_c 10 r b).
  unfold replace_c. rewrite !flat_map_app. reflexivity.
Qed.
Lemma M_indent : forall l s, M l s -> M l (indent s).
Proof. intros l s H. eapply M_bare; [eauto|apply bare_indent|apply contains_rep]. Qed.
Lemma M_indent2 : forall l s, M l s -> M l (indent2 s).
Proof. intros l s H. eapply M_bare; [eauto|apply bare_indent2|apply contains_rep]. Qed.
Lemma M_one : forall p s, shown p s -> M [p] s.
Proof. intros p s H. right. exists [p]. split; [apply sub_refl|]. rewrite <- (app_nil_r (bare s)). constructor; auto. constructor. Qed.

(** words and signs in a fixed text *)
Fixpoint eat (s : str) : str := match s with c :: r => if filler c then eat r else s | [] => [] end.
Fixpoint lit (ks : list str) (s : str) : bool :=
  match ks with
  | [] => forallb filler s
  | k :: r => let s' := eat s in startswith (upper k) s' && lit r (skipn (length k) s')
  end.
Lemma eat_split : forall s, exists f, s = f ++ eat s /\ forallb filler f = true.
Proof.
  induction s as [|c s (f & E & F)]; [exists []; auto|]. cbn [eat]. destruct (filler c) eqn:C; [|exists []; auto].
  exists (c :: f). cbn [app forallb]. rewrite C, <- E. auto.
Qed.
Lemma M_lit : forall ks s, lit ks s = true -> M (map Key ks) s.
Proof.
  induction ks as [|k ks IH]; intros s H; cbn [lit map] in *; [apply M_fill; auto|].
  destruct (eat_split s) as (f & E & F). apply andb_prop in H as [H1 H2]. apply startswith_true in H1 as [r R]. rewrite R in *.
  assert (L : length (upper k) = length k) by (unfold upper; apply map_length).
  rewrite <- L, skipn_app, skipn_all, Nat.sub_diag in H2. cbn [app skipn] in H2. rewrite E. apply M_pre; auto.
  change (Key k :: map Key ks) with ([Key k] ++ map Key ks). apply M_app; [apply M_one; constructor|]. apply IH; auto.
Qed.

Lemma Ok_inj : forall {A} (a b : A), Ok a = Ok b -> b = a.
Proof. intros A a b H. inversion H. auto. Qed.
Definition Ms (l : list node) (ts : list str) : Prop := Forall2 (fun x t => M (pieces x) t) l ts.
Lemma M_join : forall sep l ts, forallb filler sep = true -> Ms l ts -> M (flat_map pieces l) (join sep ts).
Proof.
  intros sep l ts S H. induction H as [|x t l ts H K IH]; [apply M_none|]. cbn [flat_map].
  destruct ts as [|t2 ts]; [inversion K; subst; cbn [join flat_map]; rewrite app_nil_r; auto|].
  change (join sep (t :: t2 :: ts)) with (t ++ sep ++ join sep (t2 :: ts)). apply M_app; auto. apply M_pre; auto.
Qed.
Lemma Ms_indent : forall l ts, Ms l ts -> Ms l (map indent ts).
Proof. intros l ts H. induction H; constructor; auto. apply M_indent. auto. Qed.
Lemma fill_repeat : forall k c, filler c = true -> forallb filler (repeat_s k c) = true.
Proof. intros k c H. unfold repeat_s. induction k; auto. cbn [repeat forallb]. rewrite H. auto. Qed.
Lemma M_side : forall l k b t, M l t -> M l (side_wrap k b t).
Proof.
  intros l [|k] b t H; cbn [side_wrap]; auto. apply M_pre; [apply fill_repeat; auto|].
  assert (X : M l (if b then nl ++ t else indent (nl ++ t))) by (destruct b; [|apply M_indent]; apply M_pre; auto).
  rewrite app_assoc. apply M_post; [apply (fill_repeat (S k)); auto|]. apply M_post; auto.
Qed.
Lemma M_clause : forall l t, M l t -> M l (clause_text t).
Proof. intros l t H. unfold clause_text. destruct (has_nl t); [|apply M_pre; auto]. apply M_pre; auto. apply M_pre; auto. apply M_indent; auto. Qed.
Lemma M_when : forall l t, M l t -> M l (when_text t).
Proof.
  intros l t H. unfold when_text. destruct (has_nl t).
  - apply M_pre; auto. apply M_pre; auto. rewrite app_assoc. apply M_post; auto. apply M_post; auto. apply M_indent2; auto.
  - apply M_pre; auto. apply M_post; auto.
Qed.
Lemma M_finish : forall m l t, M l t -> M l (finish m t).
Proof. intros m l t H. destruct m; cbn [finish]; auto; [apply M_clause|apply M_when|apply M_side]; auto. Qed.
Lemma M_clause_paren : forall l full t, M l full -> (has_nl full = true -> M l t) -> M l (clause_paren full t).
Proof.
  intros l full t H K. unfold clause_paren. destruct (has_nl full); [|apply M_pre; auto].
  apply M_pre; auto. apply M_pre; auto. apply M_pre; auto. apply M_post; auto. apply M_indent; auto.
Qed.
Lemma M_when_paren : forall l full t, M l full -> (has_nl full = true -> M l t) -> M l (when_paren full t).
Proof.
  intros l full t H K. unfold when_paren. destruct (has_nl full).
  - apply M_pre; auto. apply M_pre; auto. apply M_pre; auto. apply M_post; auto. apply M_indent2; auto.
  - apply M_pre; auto. apply M_post; auto.
Qed.
Lemma M_order : forall b l ts t, Ms l ts -> order_text b ts = Ok t -> M (flat_map pieces l) t.
Proof.
  intros b l ts t H E. destruct ts as [|x [|y ts]]; [discriminate| |].
  - inversion E; subst. inversion H as [|? ? ? ? H1 H2]; subst. inversion H2; subst. cbn [flat_map]. rewrite app_nil_r. apply (M_pre " "); auto.
  - cbn [order_text] in E. destruct b; apply Ok_inj in E; subst t.
    + apply M_indent. apply M_pre; auto. apply M_join; auto.
    + apply M_pre; auto. apply M_join; auto.
Qed.
Lemma M_call : forall name l ts, Ms l ts -> M (Key name :: flat_map pieces l) (call_text name ts).
Proof.
  intros name l ts H. unfold call_text. change (Key name :: flat_map pieces l) with ([Key name] ++ flat_map pieces l).
  destruct (_ || _); (apply M_app; [apply M_one; constructor|]); repeat (apply M_pre; [reflexivity|]); apply M_post; auto; apply M_join; auto.
  apply Ms_indent; auto.
Qed.
Lemma M_all : forall v k l ts t x, M x v -> Ms l ts -> select_all_text v (upper k) ts = Ok t -> M (x ++ Key k :: flat_map pieces l) t.
Proof.
  intros v k l ts t x X H E. change (Key k :: flat_map pieces l) with ([Key k] ++ flat_map pieces l).
  destruct ts as [|a [|b ts]]; [discriminate| |].
  - inversion H as [|? ? ? ? H1 H2]; subst. inversion H2; subst. cbn [select_all_text] in E. apply Ok_inj in E; subst t.
    cbn [flat_map]. rewrite app_nil_r. apply M_app; auto. apply M_pre; auto. apply M_app; [apply M_one; constructor|]. apply M_pre; auto. apply M_post; auto.
  - cbn [select_all_text] in E. apply Ok_inj in E; subst t. apply M_app; auto. apply M_pre; auto. apply M_app; [apply M_one; constructor|].
    apply M_pre; auto. apply M_pre; auto. apply M_pre; auto. apply M_post; auto. apply M_join; auto.
Qed.
Lemma M_post_if : forall l (s : str), M l s -> M l (s ++ (if has_nl s then nl ++ ")" else ")")).
Proof. intros l s H. apply M_post; auto. destruct (has_nl s); reflexivity. Qed.
Lemma M_fill_any : forall l s, forallb filler s = true -> M l s.
Proof. intros l s H. rewrite <- (app_nil_r l). apply M_right. apply M_fill. auto. Qed.
