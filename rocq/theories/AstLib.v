(** Immediate parts of a node, and induction over nodes. *)
From Verif Require Import PyStr Ast.
Local Open Scope list_scope.

Definition olist {A} (o : option A) : list A := match o with Some x => [x] | None => [] end.
Definition ollist {A} (o : option (list A)) : list A := match o with Some x => x | None => [] end.

(** All nodes that are direct parts of a node, whatever their role *)
Definition children (n : node) : list node :=
  match n with
  | NSelect exprs _ _ don from_ where_ group having order limit offset _ =>
    exprs ++ ollist don ++ olist from_ ++ olist where_
    ++ match group with Some (a, _, _) => a | None => [] end
    ++ olist having ++ ollist order
    ++ match limit with Some (_, Some x) => [x] | _ => [] end ++ olist offset
  | NWith qs s => map snd qs ++ [s]
  | NOrderItem e _ _ => [e]
  | NFun _ args | NCount args _ | NParen args | NArray args => args
  | NCast c _ => [c]
  | NArrayAgg c _ _ _ order _ => c :: ollist order
  | NFiltered f c => [f; c]
  | NAnalytics f p o _ => f :: ollist p ++ ollist o
  | NChained l r => [l; r]
  | NDatePart _ e => [e]
  | NAlias e a _ => e :: match a with inr x => [x] | inl _ => [] end
  | NIndex e l => e :: l
  | NArith _ l r | NBitwise l _ r | NCombined _ l r | NCond l _ r | NBoolC _ l r => [l; r]
  | NTable v _ => [v]
  | NUnnest e _ _ _ => [e]
  | NJoin _ l r on_ using_ => l :: r :: olist on_ ++ olist using_
  | NNeg e => [e]
  | NExcept e args | NReplace e args => e :: args
  | NCase e whens els => olist e ++ map fst whens ++ map snd whens ++ olist els
  | NColumn _ | NType _ | NString _ _ _ | NInt _ | NFloat _ | NNull | NBool _ => []
  end.

(** [occurs m n]: [m] is [n] or is somewhere inside it. *)
Inductive occurs (m : node) : node -> Prop :=
| occurs_here : occurs m m
| occurs_in : forall c n, In c (children n) -> occurs m c -> occurs m n.

Fixpoint size (n : node) {struct n} : nat :=
  let fix sizes (l : list node) : nat := match l with [] => 0 | x :: r => size x + sizes r end in
  let osize (o : option node) : nat := match o with Some x => size x | None => 0 end in
  let olsize (o : option (list node)) : nat := match o with Some x => sizes x | None => 0 end in
  S match n with
  | NSelect exprs _ _ don from_ where_ group having order limit offset _ =>
    sizes exprs + olsize don + osize from_ + osize where_
    + match group with Some (a, _, _) => sizes a | None => 0 end
    + osize having + olsize order
    + match limit with Some (_, Some x) => size x | _ => 0 end + osize offset
  | NWith qs s =>
    (fix go l := match l with [] => 0 | (_, x) :: r => size x + go r end) qs + size s
  | NOrderItem e _ _ => size e
  | NFun _ args | NCount args _ | NParen args | NArray args => sizes args
  | NCast c _ => size c
  | NArrayAgg c _ _ _ order _ => size c + olsize order
  | NFiltered f c => size f + size c
  | NAnalytics f p o _ => size f + olsize p + olsize o
  | NChained l r => size l + size r
  | NDatePart _ e => size e
  | NAlias e a _ => size e + match a with inr x => size x | inl _ => 0 end
  | NIndex e l => size e + sizes l
  | NArith _ l r | NBitwise l _ r | NCombined _ l r | NCond l _ r | NBoolC _ l r => size l + size r
  | NTable v _ => size v
  | NUnnest e _ _ _ => size e
  | NJoin _ l r on_ using_ => size l + size r + osize on_ + osize using_
  | NNeg e => size e
  | NExcept e args | NReplace e args => size e + sizes args
  | NCase e whens els =>
    osize e + (fix go l := match l with [] => 0 | (a, b) :: r => size a + size b + go r end) whens
    + osize els
  | NColumn _ | NType _ | NString _ _ _ | NInt _ | NFloat _ | NNull | NBool _ => 0
  end.

Lemma sizes_In : forall (l : list node) c, In c l ->
  size c <= (fix sizes (l : list node) : nat := match l with [] => 0 | x :: r => size x + sizes r end) l.
Proof. induction l; cbn; intros c []; [subst; lia|]. apply IHl in H. lia. Qed.

Lemma children_size : forall n c, In c (children n) -> size c < size n.
Proof.
  intros n c H.
  destruct n; cbn in H |- *;
    repeat match goal with
    | H : In _ (_ ++ _) |- _ => apply in_app_or in H as [H|H]
    | H : In _ (_ :: _) |- _ => destruct H as [H|H]
    | H : In _ [] |- _ => destruct H
    | H : False |- _ => destruct H
    | H : _ \/ _ |- _ => destruct H as [H|H]
    | H : In _ (olist ?o) |- _ => destruct o; cbn in H
    | H : In _ (ollist ?o) |- _ => destruct o; cbn in H
    | H : In _ (match ?o with _ => _ end) |- _ => destruct o; cbn in H
    end; subst; try (apply sizes_In in H; lia); try lia.
  all: clear - H.
  - assert (size c <= (fix go (l : list (str * node)) := match l with [] => 0 | (_, x) :: r => size x + go r end) queries).
    { induction queries as [|[a x] l IH]; cbn in *; [contradiction|]. destruct H as [H|H]; [subst; lia|].
      apply IH in H. lia. } lia.
  - assert (size c <= (fix go (l : list (node * node)) := match l with [] => 0 | (a, b) :: r => size a + size b + go r end) whens).
    { induction whens as [|[a x] l IH]; cbn in *; [contradiction|]. destruct H as [H|H]; [subst; lia|].
      apply IH in H. lia. } lia.
  - assert (size c <= (fix go (l : list (node * node)) := match l with [] => 0 | (a, b) :: r => size a + size b + go r end) whens).
    { induction whens as [|[a x] l IH]; cbn in *; [contradiction|]. destruct H as [H|H]; [subst; lia|].
      apply IH in H. lia. } lia.
Qed.

Lemma node_ind' : forall P : node -> Prop,
  (forall n, (forall c, In c (children n) -> P c) -> P n) -> forall n, P n.
Proof.
  intros P step n. remember (size n) as k eqn:E. revert n E.
  induction k as [k IH] using lt_wf_ind. intros n ->. apply step.
  intros c H. apply children_size in H. eapply IH; eauto.
Qed.

Lemma occurs_trans : forall a b c, occurs a b -> occurs b c -> occurs a c.
Proof. intros a b c H K. induction K; auto. econstructor; eauto. Qed.
Lemma occurs_size : forall m n, occurs m n -> size m <= size n.
Proof. intros m n H. induction H; auto. apply children_size in H. lia. Qed.

(** Induction giving the hypothesis for everything strictly inside *)
Definition inside (m n : node) : Prop := exists c, In c (children n) /\ occurs m c.
Lemma node_inside_ind : forall P : node -> Prop,
  (forall n, (forall m, inside m n -> P m) -> P n) -> forall n, P n.
Proof.
  intros P step n. remember (size n) as k eqn:E. revert n E.
  induction k as [k IH] using lt_wf_ind. intros n ->. apply step.
  intros m (c & H & O). apply children_size in H. apply occurs_size in O.
  eapply IH; [|reflexivity]. lia.
Qed.
Lemma inside_child : forall c n, In c (children n) -> inside c n.
Proof. intros c n H. exists c. split; auto. constructor. Qed.
Lemma inside_child2 : forall c d n, In d (children n) -> In c (children d) -> inside c n.
Proof. intros c d n H H0. exists d. split; auto. econstructor; eauto. constructor. Qed.
Lemma inside_occurs : forall m n, inside m n -> occurs m n.
Proof. intros m n (c & H & O). econstructor; eauto. Qed.
