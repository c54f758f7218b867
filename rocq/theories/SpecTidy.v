(** Vocabulary of the property that formatted text has no empty line and no blank at the end of a line. *)
From Verif Require Import PyStr Ast AstLib Grammar Render SpecLayout.
Local Open Scope str_scope.
Local Open Scope list_scope.

Definition blank_c (c : N) : bool := N.eqb c 32 || N.eqb c 9.
(** A line with something on it, and no blank at its end *)
Definition neat_line (l : str) : Prop := exists i c, l = i ++ [c] /\ blank_c c = false.
Definition neat (t : str) : Prop := forall l, In l (lines t) -> neat_line l.

(** A text on one line, not empty, with no blank at its end *)
Definition plain (s : str) : bool :=
  negb (has 10 s) && match rev s with c :: _ => negb (blank_c c) | [] => false end.
(** A node whose own parts are all right: names, numbers and operators are plain, literals are on one line,
    lists that must have members have them, and a query stands in parentheses only as the first item;
    no query stands, without parentheses, in a place where the printer does not expect one. *)
Definition no_sel (l : list node) : bool := forallb (fun x => negb (is_sel x)) l.
Definition tidy_node (n : node) : bool :=
  match n with
  | NSelect exprs _ _ don _ _ group _ order limit offset _ =>
    nonnil exprs && no_sel (ollist don) && no_sel (match group with Some (a, _, _) => a | None => [] end)
    && no_sel (ollist order) && no_sel (match limit with Some (_, Some x) => [x] | _ => [] end) && no_sel (olist offset)
  | NWith qs _ => nonnil qs && forallb (fun q => plain (fst q)) qs
  | NOrderItem e _ _ => negb (is_sel e)
  | NFun name _ => plain name
  | NCast _ ty => plain ty
  | NArrayAgg _ _ _ _ order _ => no_sel (ollist order)
  | NAnalytics _ _ order frame => no_sel (ollist order) && oall (fun f => plain (fst f) && plain (snd f)) frame
  | NColumn v | NType v | NFloat v => plain v
  | NDatePart p _ => plain p
  | NString v q p => negb (has 10 v) && plain q && oall (fun p => negb (has 10 p)) p
  | NParen args => no_sel (tl args)
  | NAlias _ a _ => match a with inl s => plain s | inr x => negb (is_sel x) end
  | NArith op l r => plain op && no_sel [l; r]
  | NBitwise _ op _ | NCond _ op _ | NBoolC op _ _ | NCombined op _ _ | NJoin op _ _ _ _ => plain op
  | NUnnest _ _ _ al => oall plain al
  | NCase _ ws _ => nonnil ws && no_sel (map snd ws)
  | _ => true
  end.
Definition tidy (n : node) : Prop := forall x, occurs x n -> tidy_node x = true.
(** A query stands in parentheses only as the first item. *)
Definition first_only (n : node) : Prop := forall args a, occurs (NParen args) n -> In a (tl args) -> is_select a = false.
