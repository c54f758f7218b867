(** C47: formatted text has no empty line, and no blank at the end of a line.  Definitions: SpecTidy. *)
From Verif Require Import PyStr Ast AstLib Parser Render Api Grammar SpecLayout SpecTidy ProofTidy ProofTidy2.
Local Open Scope str_scope.
Local Open Scope list_scope.

(** C47.  For statements of the fragment in which a query stands in parentheses only as the first item. *)
Theorem C47_neat : forall q n, parse_sql q = Ok n -> statement n = true -> first_only n ->
  exists t, format_sql q = Ok t /\ neat t.
Proof. exact fragment_neat. Qed.
Print Assumptions C47_neat.
Definition neat_query : str :=
  "with w as (select a from (select b, c from u where x in (select max(y) from v)) s) select case when a = 1 then 'x  ' else coalesce(b,2) end as z, sum(q) over (partition by p, s order by a rows unbounded preceding) from w left join (t) on (w.i=t.i and (w.j=t.j or w.kkkkkkkkkkkkkkkkkkkkkkkkkkkkkkkkkkkkkkkkk=t.llllllllllllllllllllllllllllllllllllllll)) where a > 1 group by a, b;".
Definition neat_tree : node := match parse_sql neat_query with Ok n => n | Err _ => NNull end.
Definition neat_text : str := match format_sql neat_query with Ok t => t | Err _ => [] end.
Example C47_example : parse_sql neat_query = Ok neat_tree /\ statement neat_tree = true /\ first_only neat_tree
  /\ length (lines neat_text) = 41.
Proof.
  split; [vm_compute; reflexivity|]. split; [vm_compute; reflexivity|]. split; [|vm_compute; reflexivity].
  apply (first_check 40). vm_compute. reflexivity.
Qed.

(** Outside the fragment, for every tree whose parts are in order. *)
Theorem C47_any_tree : forall q n t, parse_sql q = Ok n -> tidy n -> format_sql q = Ok t -> neat t.
Proof. exact any_neat. Qed.
Print Assumptions C47_any_tree.
Definition odd_query : str := "select r'a\d', -b, (a.c + 1) * 2, cast(a as int) from t union all select b from u order by 1 desc, 2 limit 5".
Definition odd_tree : node := match parse_sql odd_query with Ok n => n | Err _ => NNull end.
Definition odd_text : str := match format_sql odd_query with Ok t => t | Err _ => [] end.
Example C47_any_example : parse_sql odd_query = Ok odd_tree /\ tidy odd_tree /\ format_sql odd_query = Ok odd_text
  /\ statement odd_tree = false /\ length (lines odd_text) = 13.
Proof.
  split; [vm_compute; reflexivity|]. split; [|vm_compute; auto]. apply (tidy_check 40). vm_compute. reflexivity.
Qed.

(** Not for every query: after a comma in parentheses a query starts on a new line and leaves the blank
    behind the comma, and literals keep their empty lines and blanks. *)
Theorem C47_any_query_refuted :
  (exists q n t, parse_sql q = Ok n /\ statement n = true /\ format_sql q = Ok t /\ In " x IN (b, " (lines t) /\ ~ neat t)
  /\ (exists q t, format_sql q = Ok t /\ In [] (lines t) /\ ~ neat t).
Proof.
  assert (A : forall t l c, In (l ++ [c]) (lines t) -> blank_c c = true -> ~ neat t).
  { intros t l c I B N. destruct (N _ I) as (i & d & E & D). apply app_inj_tail in E as [_ ->]. congruence. }
  assert (Z : forall t, In [] (lines t) -> ~ neat t).
  { intros t I N. destruct (N _ I) as ([] & d & E & D); discriminate E. }
  split.
  - exists "select a from t where x in (b, select c from u)", (match parse_sql "select a from t where x in (b, select c from u)" with Ok n => n | Err _ => NNull end), "SELECT a
FROM t
WHERE
 x IN (b, 
  SELECT c
  FROM u
 )".
    split; [vm_compute; reflexivity|]. split; [vm_compute; reflexivity|]. split; [vm_compute; reflexivity|].
    split; [|apply (A _ " x IN (b," 32%N); [|reflexivity]]; vm_compute; right; right; right; left; reflexivity.
  - exists "select 'a 

b'", "SELECT 'a 

b'". split; [vm_compute; reflexivity|]. split; [|apply Z]; vm_compute; right; left; reflexivity.
Qed.
Print Assumptions C47_any_query_refuted.
