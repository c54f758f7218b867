(** C54: the parser and the formatter take everything from the query, each token once and in order.  Definitions: SpecTaken. *)
From Verif Require Import PyStr Tokeniser Ast Parser Render Api SpecTaken ProofSpelled2 ProofSpelled3.
Local Open Scope str_scope.
Local Open Scope list_scope.

(** C54.  Whatever the query: the fields of the tree, read left to right, are written by tokens of the query in the same
    order, and no token is used twice. *)
Theorem C54_taken : forall sql n, parse_sql sql = Ok n -> taken (pieces n) (fst (to_tokens sql)).
Proof. exact sql_taken. Qed.
Print Assumptions C54_taken.
Definition taken_query : str := "select a, -1, count(distinct b) c from t left join u on t.x = u.y where s = 'it' order by 1 desc limit 10".
Example C54_taken_example : exists n, parse_sql taken_query = Ok n
  /\ pieces n = [Key "select"; Text "a"; Whole (-1); Key "count"; Key "distinct"; Text "b"; Text "c"; Key "from"; Text "t"; Key "LEFT JOIN"; Text "u";
    Key "on"; Text "t"; Text "."; Text "x"; Key "="; Text "u"; Text "."; Text "y"; Key "where"; Text "s"; Key "="; Quote "'"; Text "it"; Quote "'";
    Key "order"; Key "by"; Whole 1; Key "desc"; Key "limit"; Whole 10].
Proof. eexists. vm_compute. split; reflexivity. Qed.
(** [taken] does distinguish: not twice, not in another order, nothing else. *)
Example C54_taken_not : ~ taken [Text "a"; Text "a"] ["a"; ","; "b"] /\ ~ taken [Text "b"; Text "a"] ["a"; ","; "b"]
  /\ ~ taken [Text "c"] ["a"; ","; "b"].
Proof. exact taken_not. Qed.

(** C54.  A name is in the tree at most as often as it is in the query. *)
Theorem C54_names : forall sql n s, parse_sql sql = Ok n -> times s (pieces n) <= count_occ (list_eq_dec N.eq_dec) (fst (to_tokens sql)) s.
Proof. exact sql_times. Qed.
Print Assumptions C54_names.
Example C54_names_example : exists n, parse_sql "select a, b from a where a > b" = Ok n /\ times "a" (pieces n) = 3
  /\ count_occ (list_eq_dec N.eq_dec) (fst (to_tokens "select a, b from a where a > b")) "a" = 3.
Proof. eexists. vm_compute. repeat split; reflexivity. Qed.

(** C54.  The formatted text is, apart from blanks and line ends, pieces taken from the query in order, with commas and
    brackets between them. *)
Theorem C54_formatted : forall sql t, format_sql sql = Ok t -> contains REPR t = false ->
  exists l, taken l (fst (to_tokens sql)) /\ spelled l (bare t).
Proof. exact formatted. Qed.
Print Assumptions C54_formatted.
Example C54_formatted_example : exists t, format_sql taken_query = Ok t /\ contains REPR t = false
  /\ bare t = "SELECTa,-1,COUNT(DISTINCTb)cFROMtLEFTJOINuONt.x=u.yWHEREs='it'ORDERBY1DESCLIMIT10".
Proof. eexists. vm_compute. repeat split; reflexivity. Qed.
(** Where the text has a repr, it has more than the query has. *)
Theorem C54_repr_refuted : exists sql t, format_sql sql = Ok t /\ forall l, taken l (fst (to_tokens sql)) -> ~ spelled l (bare t).
Proof. exact repr_witness. Qed.
Print Assumptions C54_repr_refuted.
(** The converse is false: a name of the query may be missing in the text. *)
Theorem C54_everything_refuted : exists sql t name, format_sql sql = Ok t /\ In name (fst (to_tokens sql)) /\ contains name t = false.
Proof. exact lost_witness. Qed.
Print Assumptions C54_everything_refuted.
(** Quote marks are an exception: the text may have more of them than the query. *)
Theorem C54_quotes_refuted : exists sql t, format_sql sql = Ok t /\ count_occ N.eq_dec sql 39%N < count_occ N.eq_dec t 39%N.
Proof. exact quote_witness. Qed.
Print Assumptions C54_quotes_refuted.
