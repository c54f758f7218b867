(** The counting parsers of ParseCost.v return what the parsers of Parser.v return. *)
From Verif Require Import PyStr PyFloat Lib Tokeniser Ast Parser ParseCost.
Local Open Scope str_scope.
Local Open Scope list_scope.

Definition same {A} (c : counted A) (r : R A) : Prop := fst c = r.
Lemma same_free : forall {A} (r : R A), same (free r) r.
Proof. reflexivity. Qed.
Lemma same_bind : forall {A B} (a : counted A) r (f : A -> counted B) g,
  same a r -> (forall x, same (f x) (g x)) -> same (cbind a f) (rbind r g).
Proof.
  intros A B [[x|e] [k q]] r f g <- H; cbn; [|reflexivity].
  specialize (H x). destruct (f x) as [y [k' q']]. exact H.
Qed.
Lemma same_retry : forall n a b r s, same a r -> same b s ->
  same (retry n a b) (match r with
                      | Ok x => Ok x
                      | Err StopIteration => Err StopIteration
                      | Err (ParsingError _) => s
                      | Err AssertionError => Err AssertionError
                      | Err ValueError => Err ValueError
                      | Err IndexError => Err IndexError
                      | Err AttributeError => Err AttributeError
                      | Err TypeError => Err TypeError
                      | Err RecursionError => Err RecursionError
                      | Err (OtherError name) => Err (OtherError name)
                      | Err OutOfFuel => Err OutOfFuel
                      end : R node).
Proof. intros n [[x|[]] [k q]] [y [k' q']] r s H1 H2; unfold same in *; cbn in *; subst; reflexivity. Qed.
Definition agree (P : cparsers_t) (Q : parsers_t) : Prop :=
  (forall eos o ts, same (c_expr P eos o ts) (p_expr Q eos o ts))
  /\ (forall eos ts, same (c_select P eos ts) (p_select Q eos ts))
  /\ (forall ts, same (c_from P ts) (p_from Q ts))
  /\ (forall eos ts, same (c_stmt P eos ts) (p_stmt Q eos ts)).
Create HintDb same.
Ltac sm := repeat first
  [ apply same_free
  | reflexivity
  | solve [eauto 2 with same nocore]
  | match goal with |- same (let '(_, _) := ?x in _) _ => destruct x as [[? ?] ?] end
  | match goal with |- same (cbind _ _) _ => apply same_bind end
  | apply same_retry
  | match goal with |- forall _, _ => intros ?; cbv beta end
  | match goal with x : (_ * _)%type |- _ => destruct x as [? ?]; cbv beta iota end
  | match goal with |- same (if ?b then _ else _) _ => destruct b end
  | match goal with |- same (match ?b with _ => _ end) _ => destruct b end
  | progress cbv zeta ].
Lemma same_expr : forall P Q eos o ts, agree P Q -> same (c_expr P eos o ts) (p_expr Q eos o ts).
Proof. firstorder. Qed.
Lemma same_select : forall P Q eos ts, agree P Q -> same (c_select P eos ts) (p_select Q eos ts).
Proof. firstorder. Qed.
Lemma same_from : forall P Q ts, agree P Q -> same (c_from P ts) (p_from Q ts).
Proof. firstorder. Qed.
Lemma same_stmt : forall P Q eos ts, agree P Q -> same (c_stmt P eos ts) (p_stmt Q eos ts).
Proof. firstorder. Qed.
#[local] Hint Resolve same_expr same_select same_from same_stmt : same.
Lemma same_exprlist_loop : forall P Q can_be_type acc par sq in_string ts, agree P Q -> same (c_exprlist_loop P can_be_type acc par sq in_string ts) (exprlist_loop Q can_be_type acc par sq in_string ts).
Proof.
  intros P Q can_be_type acc par sq in_string ts G. remember (length ts) as n eqn:LN. assert (LE : length ts <= n) by lia. clear LN.
  revert ts LE acc par sq in_string. induction n as [|n IH]; intros ts LE acc par sq in_string.
  { destruct ts; [reflexivity|cbn in LE; lia]. }
  destruct ts as [|t r]; [reflexivity|]. cbn [c_exprlist_loop exprlist_loop]. cbv zeta.
  match goal with |- same (let '(_, _) := ?x in _) _ => destruct x as [[a b] c] end.
  cbn in LE. destruct r as [|m r]; [sm|].
  destruct (str_eqb m "," && Z.eqb a 0 && Z.eqb b 0 && negb c); [|apply IH; cbn in *; lia].
  apply same_bind; [eauto with same|]. intros [[e nt] ts']. apply same_bind; [apply IH; cbn in *; lia|]. sm.
Qed.
#[local] Hint Resolve same_exprlist_loop : same.
Lemma same_exprlist : forall P Q can_be_type ts, agree P Q -> same (c_exprlist P can_be_type ts) (exprlist Q can_be_type ts).
Proof. intros. unfold c_exprlist, exprlist. sm. Qed.
#[local] Hint Resolve same_exprlist : same.
Lemma same_orderby_item : forall P Q ts, agree P Q -> same (c_orderby_item P ts) (orderby_item Q ts).
Proof. intros. unfold c_orderby_item, orderby_item. sm. Qed.
#[local] Hint Resolve same_orderby_item : same.
Lemma same_orderby_loop : forall P Q k ts, agree P Q -> same (c_orderby_loop P k ts) (orderby_loop Q k ts).
Proof.
  intros P Q k. induction k as [|k IH]; intros; cbn [c_orderby_loop orderby_loop]; sm.
Qed.
#[local] Hint Resolve same_orderby_loop : same.
Lemma same_orderby : forall P Q ts, agree P Q -> same (c_orderby P ts) (orderby Q ts).
Proof. intros. unfold c_orderby, orderby. sm. Qed.
#[local] Hint Resolve same_orderby : same.
Lemma same_groupby : forall P Q ts, agree P Q -> same (c_groupby P ts) (groupby Q ts).
Proof. intros. unfold c_groupby, groupby. sm. Qed.
#[local] Hint Resolve same_groupby : same.
Lemma same_limit_clause : forall P Q ts, agree P Q -> same (c_limit_clause P ts) (limit_clause Q ts).
Proof. intros. unfold c_limit_clause, limit_clause. sm. Qed.
#[local] Hint Resolve same_limit_clause : same.
Lemma same_case_loop : forall P Q k nt ts whens els, agree P Q -> same (c_case_loop P k nt ts whens els) (case_loop Q k nt ts whens els).
Proof.
  intros P Q k. induction k as [|k IH]; intros; cbn [c_case_loop case_loop]; sm.
Qed.
#[local] Hint Resolve same_case_loop : same.
Lemma same_case_parse : forall P Q ts, agree P Q -> same (c_case_parse P ts) (case_parse Q ts).
Proof. intros. unfold c_case_parse, case_parse. sm. Qed.
#[local] Hint Resolve same_case_parse : same.
Lemma same_expr_first : forall P Q eos o main ts, agree P Q -> same (c_expr_first P eos o main ts) (expr_first Q eos o main ts).
Proof. intros. unfold c_expr_first, expr_first. sm. Qed.
#[local] Hint Resolve same_expr_first : same.
Lemma same_cast_call : forall P Q eos o ts, agree P Q -> same (c_cast_call P eos o ts) (cast_call Q eos o ts).
Proof. intros. unfold c_cast_call, cast_call. sm. Qed.
#[local] Hint Resolve same_cast_call : same.
Lemma same_array_agg_call : forall P Q eos o ts, agree P Q -> same (c_array_agg_call P eos o ts) (array_agg_call Q eos o ts).
Proof. intros. unfold c_array_agg_call, array_agg_call. sm. Qed.
#[local] Hint Resolve same_array_agg_call : same.
Lemma same_count_call : forall P Q eos ts, agree P Q -> same (c_count_call P eos ts) (count_call Q eos ts).
Proof. intros. unfold c_count_call, count_call. sm. Qed.
#[local] Hint Resolve same_count_call : same.
Lemma same_other_call : forall P Q eos o main ts, agree P Q -> same (c_other_call P eos o main ts) (other_call Q eos o main ts).
Proof. intros. unfold c_other_call, other_call. sm. Qed.
#[local] Hint Resolve same_other_call : same.
Lemma same_call : forall P Q eos o main ts, agree P Q -> same (c_call P eos o main ts) (call Q eos o main ts).
Proof. intros. unfold c_call, call. sm. Qed.
#[local] Hint Resolve same_call : same.
Lemma same_expr_second : forall P Q eos o main nt ts, agree P Q -> same (c_expr_second P eos o main nt ts) (expr_second Q eos o main nt ts).
Proof. intros. unfold c_expr_second, expr_second. sm. Qed.
#[local] Hint Resolve same_expr_second : same.
Lemma same_over_clause : forall P Q eos e nt ts, agree P Q -> same (c_over_clause P eos e nt ts) (over_clause Q eos e nt ts).
Proof. intros. unfold c_over_clause, over_clause. sm. Qed.
#[local] Hint Resolve same_over_clause : same.
Lemma same_dot_loop : forall P Q k eos until e nt ts, agree P Q -> same (c_dot_loop P k eos until e nt ts) (dot_loop Q k eos until e nt ts).
Proof.
  intros P Q k. induction k as [|k IH]; intros; cbn [c_dot_loop dot_loop]; sm.
Qed.
#[local] Hint Resolve same_dot_loop : same.
Lemma same_index_loop : forall P Q k eos e nt ts, agree P Q -> same (c_index_loop P k eos e nt ts) (index_loop Q k eos e nt ts).
Proof.
  intros P Q k. induction k as [|k IH]; intros; cbn [c_index_loop index_loop]; sm.
Qed.
#[local] Hint Resolve same_index_loop : same.
Lemma same_expr_postfix : forall P Q eos o e nt ts, agree P Q -> same (c_expr_postfix P eos o e nt ts) (expr_postfix Q eos o e nt ts).
Proof. intros. unfold c_expr_postfix, expr_postfix. sm. Qed.
#[local] Hint Resolve same_expr_postfix : same.
Lemma same_expr_compare : forall P Q eos o e nt ts, agree P Q -> same (c_expr_compare P eos o e nt ts) (expr_compare Q eos o e nt ts).
Proof. intros. unfold c_expr_compare, expr_compare. sm. Qed.
#[local] Hint Resolve same_expr_compare : same.
Lemma same_expr_bool : forall P Q eos o e nt ts, agree P Q -> same (c_expr_bool P eos o e nt ts) (expr_bool Q eos o e nt ts).
Proof. intros. unfold c_expr_bool, expr_bool. sm. Qed.
#[local] Hint Resolve same_expr_bool : same.
Lemma same_expr_except : forall P Q eos e nt ts, agree P Q -> same (c_expr_except P eos e nt ts) (expr_except Q eos e nt ts).
Proof. intros. unfold c_expr_except, expr_except. sm. Qed.
#[local] Hint Resolve same_expr_except : same.
Lemma same_expr_replace : forall P Q eos e nt ts, agree P Q -> same (c_expr_replace P eos e nt ts) (expr_replace Q eos e nt ts).
Proof. intros. unfold c_expr_replace, expr_replace. sm. Qed.
#[local] Hint Resolve same_expr_replace : same.
Lemma same_expr_alias : forall P Q eos o e nt ts, agree P Q -> same (c_expr_alias P eos o e nt ts) (expr_alias Q eos o e nt ts).
Proof. intros. unfold c_expr_alias, expr_alias. sm. Qed.
#[local] Hint Resolve same_expr_alias : same.
Lemma same_expr_tail : forall P Q eos o e nt ts, agree P Q -> same (c_expr_tail P eos o e nt ts) (expr_tail Q eos o e nt ts).
Proof. intros. unfold c_expr_tail, expr_tail. sm. Qed.
#[local] Hint Resolve same_expr_tail : same.
Lemma same_expr_head : forall P Q eos o main ts, agree P Q -> same (c_expr_head P eos o main ts) (expr_head Q eos o main ts).
Proof. intros. unfold c_expr_head, expr_head. sm. Qed.
#[local] Hint Resolve same_expr_head : same.
Lemma same_expr_body : forall P Q eos o ts, agree P Q -> same (c_expr_body P eos o ts) (expr_body Q eos o ts).
Proof. intros. unfold c_expr_body, expr_body. sm. Qed.
#[local] Hint Resolve same_expr_body : same.
Lemma same_select_body : forall P Q eos ts, agree P Q -> same (c_select_body P eos ts) (select_body Q eos ts).
Proof. intros. unfold c_select_body, select_body. sm. Qed.
#[local] Hint Resolve same_select_body : same.
Lemma same_with_loop : forall P Q k eos ts, agree P Q -> same (c_with_loop P k eos ts) (with_loop Q k eos ts).
Proof.
  intros P Q k. induction k as [|k IH]; intros; cbn [c_with_loop with_loop]; sm.
Qed.
#[local] Hint Resolve same_with_loop : same.
Lemma same_with_parse : forall P Q eos ts, agree P Q -> same (c_with_parse P eos ts) (with_parse Q eos ts).
Proof. intros. unfold c_with_parse, with_parse. sm. Qed.
#[local] Hint Resolve same_with_parse : same.
Lemma same_stmt_body : forall P Q eos ts, agree P Q -> same (c_stmt_body P eos ts) (stmt_body Q eos ts).
Proof. intros. unfold c_stmt_body, stmt_body. sm. Qed.
#[local] Hint Resolve same_stmt_body : same.
Lemma same_unnest_parse : forall P Q ts, agree P Q -> same (c_unnest_parse P ts) (unnest_parse Q ts).
Proof. intros. unfold c_unnest_parse, unnest_parse. sm. Qed.
#[local] Hint Resolve same_unnest_parse : same.
Lemma same_table_dot_loop : forall P Q k e nt ts, agree P Q -> same (c_table_dot_loop P k e nt ts) (table_dot_loop Q k e nt ts).
Proof.
  intros P Q k. induction k as [|k IH]; intros; cbn [c_table_dot_loop table_dot_loop]; sm.
Qed.
#[local] Hint Resolve same_table_dot_loop : same.
Lemma same_from_item : forall P Q ts, agree P Q -> same (c_from_item P ts) (from_item Q ts).
Proof. intros. unfold c_from_item, from_item. sm. Qed.
#[local] Hint Resolve same_from_item : same.
Lemma same_set_loop : forall P Q k e nt ts, agree P Q -> same (c_set_loop P k e nt ts) (set_loop Q k e nt ts).
Proof.
  intros P Q k. induction k as [|k IH]; intros; cbn [c_set_loop set_loop]; sm.
Qed.
#[local] Hint Resolve same_set_loop : same.
Lemma same_join_loop : forall P Q k e nt ts, agree P Q -> same (c_join_loop P k e nt ts) (join_loop Q k e nt ts).
Proof.
  intros P Q k. induction k as [|k IH]; intros; cbn [c_join_loop join_loop]; sm.
Qed.
#[local] Hint Resolve same_join_loop : same.
Lemma same_from_body : forall P Q ts, agree P Q -> same (c_from_body P ts) (from_body Q ts).
Proof. intros. unfold c_from_body, from_body. sm. Qed.
#[local] Hint Resolve same_from_body : same.
Lemma fst_tick : forall {A} (a : counted A), fst (tick a) = fst a.
Proof. intros A [r [k q]]. reflexivity. Qed.
Lemma agree_parsers : forall n, agree (cparsers n) (parsers n).
Proof.
  induction n as [|n IH]; [repeat split|].
  repeat split; intros; cbn [cparsers parsers c_expr c_select c_from c_stmt p_expr p_select p_from p_stmt];
    unfold same; rewrite fst_tick.
  - apply same_expr_body; auto.
  - apply same_select_body; auto.
  - apply same_from_body; auto.
  - apply same_stmt_body; auto.
Qed.
Lemma counted_result : forall eos ts, fst (cparse_stmt eos ts) = parse_stmt eos ts.
Proof. intros. apply agree_parsers. Qed.
