(** C62: exactly when is_valid() raises. *)
From Verif Require Import PyStr Ast AstLib Validate Api Grammar SpecVal SpecReport SpecApi SpecAnswer SpecNested SpecStuck ProofAnswer ProofStuck.
Local Open Scope str_scope.
Local Open Scope list_scope.

(** C62.  For a SELECT of the fragment whose names are settled ([settled_names]), is_valid() raises exactly when
    something stuck is looked at: a CAST, LIMIT ALL, a query or () as LIMIT or OFFSET, () in GROUP BY or ORDER BY, or a
    positive position in the ORDER BY of a window. *)
Theorem C62_raises_exactly : forall q n ord, is_order ord -> parse_sql q = Ok n -> is_sel n = true -> statement n = true -> settled_names n ->
  ((exists e, fst (q_is_valid ord (new_query q)) = Err e) <-> exists x, looked x n /\ stuck x).
Proof. exact raises_exactly. Qed.
Print Assumptions C62_raises_exactly.
Definition tree (q : str) : node := match parse_sql q with Ok n => n | Err _ => NNull end.
Definition answer (q : str) : R bool := fst (q_is_valid (fun s => s) (new_query q)).
Definition deep : str := "select a, (select max(b) from (select sum(b) over (partition by c order by (1)) as b from u)) m from t where a = 1 group by a;".
(** CAST where validation does not look: in ON, GROUP BY and LIMIT *)
Definition hidden : str := "select a, b from t join u on cast(a as int) = b group by cast(a as int), a order by 1 limit cast(3 as int)".
Example C62_example :
  (parse_sql deep = Ok (tree deep) /\ is_sel (tree deep) = true /\ statement (tree deep) = true /\ settled_names (tree deep)
   /\ answer deep = Err TypeError)
  /\ (parse_sql hidden = Ok (tree hidden) /\ is_sel (tree hidden) = true /\ statement (tree hidden) = true /\ settled_names (tree hidden)
   /\ ~ (exists x, looked x (tree hidden) /\ stuck x) /\ answer hidden = Ok false).
Proof.
  split.
  - split; [vm_compute; reflexivity|]. split; [vm_compute; reflexivity|]. split; [vm_compute; reflexivity|]. split; [apply settledb_ok; vm_compute; reflexivity|vm_compute; reflexivity].
  - assert (A : answer hidden = Ok false) by (vm_compute; reflexivity). assert (P : parse_sql hidden = Ok (tree hidden)) by (vm_compute; reflexivity).
    split; [exact P|]. split; [vm_compute; reflexivity|]. split; [vm_compute; reflexivity|]. split; [apply settledb_ok; vm_compute; reflexivity|].
    split; [|exact A]. intros (x & L & S). destruct (stuck_is_valid hidden (tree hidden) x (fun s => s) P) as (e & E); [vm_compute; reflexivity|exact L|exact S|].
    unfold answer in A. rewrite A in E. discriminate E.
Qed.

(** Inside the fragment or not, whatever the names: something stuck that is looked at makes is_valid() raise. *)
Theorem C62_stuck_raises : forall q n x ord, parse_sql q = Ok n -> is_sel n = true -> looked x n -> stuck x ->
  exists e, fst (q_is_valid ord (new_query q)) = Err e.
Proof. exact stuck_is_valid. Qed.
Print Assumptions C62_stuck_raises.
Example C62_stuck_example : let q := "select sum(a) over (order by ((2)) desc) from t where ()" in
  exists x, looked x (tree q) /\ stuck x /\ parse_sql q = Ok (tree q).
Proof.
  eexists. split; [|split; [|vm_compute; reflexivity]].
  - eapply lk_clause; [apply vi_list; left; reflexivity|constructor].
  - eapply sk_over; [left; reflexivity|repeat constructor|reflexivity].
Qed.

(** Each condition on the names is needed: these raise, though nothing in them is stuck. *)
Theorem C62_any_names_refuted : forall q, In q
  ["select a from t where ()"; "select a from t where (select true)"; "select a from t where b and (select true)";
   "select a from (select b 'x' from t)"; "select a from (select a from t) x join (select a from t) y on b group by a"] ->
  (exists e, answer q = Err e) /\ parse_sql q = Ok (tree q) /\ is_sel (tree q) = true /\ statement (tree q) = true
  /\ ~ exists x, looked x (tree q) /\ stuck x.
Proof.
  intros q I. repeat (destruct I as [<-|I]; [split; [eexists; vm_compute; reflexivity|]; split; [vm_compute; reflexivity|]; split; [vm_compute; reflexivity|]; split; [vm_compute; reflexivity|]; apply none_stuck; vm_compute; reflexivity|]).
  destruct I.
Qed.
Print Assumptions C62_any_names_refuted.
