(** C15, C16: the layout of formatted queries. *)
From Verif Require Import PyStr AstLib Ast Parser Render Api Grammar SpecLayout GramNest ProofBreak.
Local Open Scope str_scope.
Local Open Scope list_scope.

(** C15.  A query between parentheses, in a query that parses into a statement of the fragment,
    stands in the formatted text on lines of its own: they are the lines it formats to by itself,
    each after the same number of spaces, at least one for each nesting. *)
Theorem C15_nested_query : forall q n m d, parse_sql q = Ok n -> statement n = true -> nested m d n ->
  exists t u k, format_sql q = Ok t /\ transform m = Ok u /\ d <= k /\ block k u t.
Proof. exact nested_query. Qed.
Print Assumptions C15_nested_query.
Definition layout_query : str :=
  "with w as (select a from (select b, c from u where x in (select max(y) from v)) s) select a from w where a > 1;".
Definition layout_tree : node := match parse_sql layout_query with Ok n => n | Err _ => NNull end.
Definition inner_tree : node := match parse_sql "select max(y) from v" with Ok n => n | Err _ => NNull end.
Definition layout_out : str := "WITH w AS (
 SELECT a
 FROM (
  SELECT
   b,
   c
  FROM u
  WHERE
   x IN (
    SELECT MAX(y)
    FROM v
   )
 ) s
)
SELECT a
FROM w
WHERE a > 1;".
Example C15_example : parse_sql layout_query = Ok layout_tree /\ statement layout_tree = true
  /\ nested inner_tree 3 layout_tree /\ format_sql layout_query = Ok layout_out.
Proof.
  split; [vm_compute; reflexivity|]. split; [vm_compute; reflexivity|]. split; [|vm_compute; reflexivity].
  vm_compute. eapply nested_in_with; [left; reflexivity|reflexivity|].
  eapply nested_in; [right; left; reflexivity| |exact I].
  eapply nested_in; [left; reflexivity| |exact I].
  eapply nested_in_paren; [left; reflexivity|reflexivity|].
  eapply nested_in; [right; right; right; left; reflexivity| |exact I].
  eapply nested_in; [right; left; reflexivity| |exact I].
  apply nested_paren; [left; reflexivity|reflexivity].
Qed.
(** A query that formats to one line and is an operand of a broken AND or OR is left on the line. *)
Theorem C15_any_operand_refuted : exists q n m t u,
  parse_sql q = Ok n /\ statement n = true /\ occurs (NParen [m]) n /\ is_select m = true
  /\ format_sql q = Ok t /\ transform m = Ok u
  /\ ~ exists l, In l (lines t) /\ (exists k, l = spaces k ++ u).
Proof.
  exists "select a from t where aaaaaaaaaaaaaaaaaaaaaaaaaaaaaaaaaaaaaaaaaaaaaaaaaaaaaaaaaaaaaaaaaaaaaaaaaaaaa = bbbbbbbbbbbbbb and (select 1)".
  eexists. exists (NSelect [NInt 1] false false None None None None None None None None false).
  exists "SELECT a
FROM t
WHERE
 aaaaaaaaaaaaaaaaaaaaaaaaaaaaaaaaaaaaaaaaaaaaaaaaaaaaaaaaaaaaaaaaaaaaaaaaaaaaa = bbbbbbbbbbbbbb
 AND (SELECT 1)", "SELECT 1".
  split; [vm_compute; reflexivity|]. split; [vm_compute; reflexivity|]. split.
  { eapply occurs_in; [right; right; left; reflexivity|]. eapply occurs_in; [right; left; reflexivity|]. apply occurs_here. }
  split; [reflexivity|]. split; [vm_compute; reflexivity|]. split; [vm_compute; reflexivity|].
  intros (l & I & k & E). assert (L : hd_error (rev l) = Some 49%N) by (subst l; rewrite rev_app_distr; reflexivity).
  clear E. vm_compute in I. repeat (destruct I as [I|I]; [subst l; vm_compute in L; discriminate L|]). destruct I.
Qed.
Print Assumptions C15_any_operand_refuted.

(** C16.  A condition: on one line when that line is shorter than 88 characters, whatever its
    operands are; otherwise, if its operands are on one line each, one line for each operand, also
    for the operands of a condition within it.  An operand in parentheses must have one argument. *)
Theorem C16_short_condition : forall text c, (forall x, In x (operands c) -> transform x = Ok (text x))
  -> length (one_line text c) < 88 -> transform c = Ok (one_line text c).
Proof. exact cond_short. Qed.
Print Assumptions C16_short_condition.
Theorem C16_condition : forall text op l r, let c := NBoolC op l r in
  (forall x, In x (operands c) -> transform x = Ok (text x))
  -> (forall args, In (NParen args) (operands c) -> length args = 1)
  -> ~ In 10%N (one_line text c)
  -> transform c = Ok (if length (one_line text c) <? 88 then one_line text c else join [10%N] (line_each text c)).
Proof. exact cond_text. Qed.
Print Assumptions C16_condition.
(** In a query the broken condition starts on the line after WHERE and is indented. *)
Theorem C16_where : forall text op l r, let c := NBoolC op l r in
  (forall x, In x (operands c) -> transform x = Ok (text x))
  -> (forall args, In (NParen args) (operands c) -> length args = 1)
  -> ~ In 10%N (one_line text c)
  -> forall exprs all d don f g h o li off t,
     transform (NSelect exprs all d don f (Some c) g h o li off false) = Ok t ->
     exists a b, lines t = a
       ++ (if length (one_line text c) <? 88 then ["WHERE " ++ one_line text c] else "WHERE" :: map (app " ") (line_each text c))
       ++ b.
Proof. exact where_lines. Qed.
Print Assumptions C16_where.
Definition text_of (n : node) : str := match transform n with Ok t => t | Err _ => [] end.
Definition cond_of (q : str) : node := match parse_sql q with Ok (NSelect _ _ _ _ _ (Some c) _ _ _ _ _ _) => c | _ => NNull end.
Definition long_query : str :=
  "select a from t where aaaaaaaaaaaaaaaaaaaaa = 1 and bbbbbbbbbbbbbbbbbbbbb = 2 or (ccccccccccccccccc = 3) and x".
Definition long_condition : node := Eval vm_compute in cond_of long_query.
Example C16_example : let c := long_condition in c = cond_of long_query /\
  (forall x, In x (operands c) -> transform x = Ok (text_of x))
  /\ (forall args, In (NParen args) (operands c) -> length args = 1)
  /\ ~ In 10%N (one_line text_of c) /\ length (one_line text_of c) = 88
  /\ line_each text_of c = ["aaaaaaaaaaaaaaaaaaaaa = 1"; "AND bbbbbbbbbbbbbbbbbbbbb = 2"; "OR (ccccccccccccccccc = 3)"; "AND x"].
Proof.
  cbv zeta. split; [vm_compute; reflexivity|]. split; [|split; [|split; [|split; vm_compute; reflexivity]]].
  - intros x I. unfold long_condition in I. cbn [operands app In] in I. repeat (destruct I as [<-|I]; [vm_compute; reflexivity|]). destruct I.
  - intros args I. unfold long_condition in I. cbn [operands app In] in I. repeat (destruct I as [I|I]; [first [discriminate I | injection I as <-; reflexivity]|]). destruct I.
  - intros I. vm_compute in I. repeat (destruct I as [I|I]; [discriminate I|]). destruct I.
Qed.
(** A call: its arguments are joined on the line exactly when none of them has a line break and
    they take at most 88 characters; otherwise they start new lines. *)
Theorem C16_call : forall name args ss, ~ In 10%N name -> Forall2 (fun a s => transform a = Ok s) args ss ->
  (existsb has_nl ss = false /\ length (join ", " ss) <= 88
     -> transform (NFun name args) = Ok (upper name ++ "(" ++ join ", " ss ++ ")"))
  /\ (existsb has_nl ss = true \/ 88 < length (join ", " ss)
     -> exists t, transform (NFun name args) = Ok t
        /\ lines t = (upper name ++ "(") :: map (app " ") (lines (join ("," ++ [10%N]) ss)) ++ [")"]).
Proof. exact call_lines. Qed.
Print Assumptions C16_call.
Example C16_call_example :
  let ss := ["a"; "bbbbbbbbbbbbbbbbbbbbbbbbbbbbbbbbbbbbbbbbbbbbbbbbbbbbbbbbbbbbbbbbbbbbbbbbbbbbbbbbbbbbbbb"] in
  ~ In 10%N "f" /\ Forall2 (fun a s => transform a = Ok s) (map NColumn ss) ss /\ existsb has_nl ss = false /\ length (join ", " ss) = 90
  /\ transform (NFun "f" (map NColumn ss)) = Ok "F(
 a,
 bbbbbbbbbbbbbbbbbbbbbbbbbbbbbbbbbbbbbbbbbbbbbbbbbbbbbbbbbbbbbbbbbbbbbbbbbbbbbbbbbbbbbbb
)".
Proof.
  cbv zeta. split; [intros [I|[]]; discriminate I|]. split; [cbn [map]; constructor; [vm_compute; reflexivity|constructor; [vm_compute; reflexivity|constructor]]|].
  split; [vm_compute; reflexivity|]. split; vm_compute; reflexivity.
Qed.
(** The limit is for the condition, not for the line it stands on. *)
Definition wide_a : str := "aaaaaaaaaaaaaaaaaaaaaaaaaaaaaaaaaaaaaaaa".
Definition wide_b : str := "bbbbbbbbbbbbbbbbbbbbbbbbbbbbbbbbbbbbbbbbbb".
Theorem C16_no_long_line_refuted : exists q a b t, format_sql q = Ok t
  /\ In ("WHERE " ++ a ++ " AND " ++ b) (lines t) /\ length ("WHERE " ++ a ++ " AND " ++ b) = 93.
Proof.
  exists ("select a from t where " ++ wide_a ++ " and " ++ wide_b), wide_a, wide_b,
    ("SELECT a" ++ [10%N] ++ "FROM t" ++ [10%N] ++ "WHERE " ++ wide_a ++ " AND " ++ wide_b).
  split; [vm_compute; reflexivity|]. split; [vm_compute; right; right; left; reflexivity|vm_compute; reflexivity].
Qed.
Print Assumptions C16_no_long_line_refuted.
