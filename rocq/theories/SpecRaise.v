(** Which exceptions reach the caller of the formatter and of the validator. *)
From Verif Require Import PyStr Lib Tokeniser Ast AstLib SpecTok.
Local Open Scope str_scope.
Local Open Scope list_scope.

(** One of the tokens of [q] is one of the words [ws], in any case *)
Definition uses (q : str) (ws : list str) : Prop :=
  exists t, In t (fst (to_tokens q)) /\ In (lower t) ws.
(** Digits with at least two dots *)
Definition dotted_number (t : str) : Prop :=
  isdigit (no_dots t) = true /\ exists a b c, t = a ++ [46%N] ++ b ++ [46%N] ++ c.

(** [raises q e]: what is in [q] when its parser raises [e] *)
Inductive raises (q : str) : exn -> Prop :=
| r_stop : raises q StopIteration
| r_assert : uses q ["["; "case"; "cast"; "array_agg"; "filter"; "replace"; "with"; "unnest"] ->
    raises q AssertionError
| r_quote : uses q ["'"; """"; "`"] -> raises q ValueError
| r_limit : uses q ["array_agg"] -> raises q ValueError
| r_number : (exists t, In t (fst (to_tokens q)) /\ dotted_number t) -> raises q ValueError
| r_index : uses q ["filter"; "union"; "intersect"; "except"; "all"] -> raises q IndexError
| r_recursion : ~ tame q -> raises q RecursionError
| r_statement : (exists t ts, fst (to_tokens q) = t :: ts /\ ~ In (lower t) ["select"; "with"]) ->
    raises q (ParsingError "")
| r_with : uses q ["with"] -> raises q (ParsingError "")
| r_paren : uses q ["over"; "except"; "replace"] -> raises q (ParsingError "expected '('")
| r_and : uses q ["between"] -> raises q (ParsingError "expected AND")
| r_partition : uses q ["over"] -> uses q ["partition"] -> raises q (ParsingError "Missing BY after PARTITION")
| r_order : uses q ["order"] -> raises q (ParsingError "Missing BY after ORDER")
| r_group : uses q ["group"] -> raises q (ParsingError "Missing BY after GROUP").

(** What in a parsed query makes writing it fail: parts that some places ask for [str] or [repr]
    without having it, a WITH named by a WITH, and empty lists whose first element is asked for *)
Inductive culprit : node -> exn -> Prop :=
| c_condition : forall w l r, culprit (NBoolC w l r) AttributeError
| c_alias : forall e a w, culprit (NAlias e a w) AttributeError
| c_filter : forall f c, culprit (NFiltered f c) AttributeError
| c_with : forall qs s, culprit (NWith qs s) AttributeError
| c_nested : forall qs s name qs' s', In (name, NWith qs' s') qs -> culprit (NWith qs s) TypeError
| c_paren : culprit (NParen []) IndexError
| c_except : forall e, culprit (NExcept e []) IndexError
| c_replace : forall e, culprit (NReplace e []) IndexError
| c_group : forall es a d don f w r each h o l off semi,
    culprit (NSelect es a d don f w (Some ([], r, each)) h o l off semi) IndexError
| c_order : forall es a d don f w g h l off semi,
    culprit (NSelect es a d don f w g h (Some []) l off semi) IndexError
| c_agg : forall c d i r l, culprit (NArrayAgg c d i r (Some []) l) IndexError
| c_window : forall f p r, culprit (NAnalytics f p (Some []) r) IndexError.
Definition fails (n : node) (e : exn) : Prop := exists m, occurs m n /\ culprit m e.
