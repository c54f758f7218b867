(** C66: the exact answer of is_valid() for queries on tables with and without aliases.  Definitions: SpecNamed, SpecTables, SpecScope, SpecReport. *)
From Verif Require Import PyStr Ast AstLib Validate Api Grammar SpecVal SpecScope SpecReport SpecApi SpecAnswer SpecNested SpecStuck SpecTables SpecNamed ProofNamed.
Local Open Scope str_scope.
Local Open Scope list_scope.

(** C66.  A SELECT whose clauses other than FROM are of the fragment, with tables in its FROM clauses, with or without
    aliases, or without FROM: is_valid() raises exactly when something that is looked at halts it; otherwise it is False
    exactly when something that is looked at is faulty or uses an unknown name, and True exactly when nothing does. *)
Theorem C66_named_answer : forall q n ord, is_order ord -> parse_sql q = Ok n -> is_sel n = true -> statement (without_from n) = true -> on_named_tables n ->
  ((exists e, fst (q_is_valid ord (new_query q)) = Err e) <-> exists x, looked x n /\ halts x)
  /\ (fst (q_is_valid ord (new_query q)) = Ok false <-> (~ exists x, looked x n /\ halts x) /\ exists x S, seen x S [] n /\ (faulty x \/ unknown x S))
  /\ (fst (q_is_valid ord (new_query q)) = Ok true <-> (~ exists x, looked x n /\ halts x) /\ ~ exists x S, seen x S [] n /\ (faulty x \/ unknown x S)).
Proof. exact named_answer. Qed.
Print Assumptions C66_named_answer.

Definition tree (q : str) : node := match parse_sql q with Ok n => n | Err _ => NNull end.
Definition answer (q : str) : R bool := fst (q_is_valid (fun s => s) (new_query q)).
Definition fine : str :=
  "select x.a, y.b c, sum(x.d) from `t` x join (u join s using (k)) as y on z.k = k where x.e > 1 and x.f in (select w.g from `v` w where w.h = x.i) group by x.a, c, 2 having x.j order by x.l limit 3".
(** the alias [y] of the subquery is not known outside *)
Definition outside : str := "select x.a from `t` x where x.b in (select y.c from [u] y) and y.d = 1".
(** every table has an alias, and the column none *)
Definition bare_column : str := "select x.a from `t` x, `u` y where b = 1".
Definition bare_group : str := "select x.a from `t` x group by (g)".
Definition no_from : str := "select a, 1".
Definition raising : str := "select x.a from `t` x where x.b and (select y.c from `u` y)".
(** one table without alias: every name is known *)
Definition open_one : str := "select a, q.b from t join `u` y on 1 where b in (select z.c from `v` z where p.d = y.e) group by g".
Definition queries : list str := [fine; outside; bare_column; bare_group; no_from; raising; open_one].
Example C66_example : forall q, In q queries ->
  parse_sql q = Ok (tree q) /\ is_sel (tree q) = true /\ statement (without_from (tree q)) = true /\ on_named_tables (tree q).
Proof.
  intros q I. unfold queries in I.
  repeat (destruct I as [<-|I]; [split; [vm_compute; reflexivity|]; split; [vm_compute; reflexivity|]; split; [vm_compute; reflexivity|apply on_named_tablesb_ok; vm_compute; reflexivity]|]). destruct I.
Qed.
Example C66_example_answers : map answer queries = [Ok true; Ok false; Ok false; Ok false; Ok false; Err AttributeError; Ok true].
Proof. vm_compute. reflexivity. Qed.
(** What is unknown in them, without the theorem *)
Example C66_example_unknown :
  (exists r S, seen (NChained (NColumn "y") r) S [] (tree outside) /\ unknown (NChained (NColumn "y") r) S)
  /\ (exists S, seen (NColumn "b") S [] (tree bare_column) /\ unknown (NColumn "b") S)
  /\ unknown (tree bare_group) [] /\ exists S, seen (NColumn "a") S [] (tree no_from) /\ unknown (NColumn "a") S.
Proof.
  assert (P : forall v a w, plain a -> provides (NAlias (NTable v false) (inl a) w) [(Some a, "*")]).
  { intros v a w Pa. apply (pv_alias _ a w [(None, "*")]); [constructor|exact Pa|intros x [<-|[]]; reflexivity]. }
  split; [|split; [|split]].
  - exists (NColumn "d"), [(Some "x", "*")]. split.
    + let t := eval vm_compute in (tree outside) in change (tree outside) with t.
      eapply sn_query; [apply vi_where|reflexivity|apply P; reflexivity|]. eapply sn_part; [apply pt_bool_r|]. eapply sn_part; [apply pt_cond_l|]. apply sn_here.
    + constructor; [|intros [X|[]]; discriminate X]. intros a [X|[]]. injection X as <-. discriminate.
  - exists ([(Some "x", "*")] ++ [(Some "y", "*")]). split.
    + let t := eval vm_compute in (tree bare_column) in change (tree bare_column) with t.
      eapply sn_query; [apply vi_where|reflexivity|apply pv_join; apply P; reflexivity|]. eapply sn_part; [apply pt_cond_l|]. apply sn_here.
    + constructor; [discriminate|]. intros [X|[X|[]]]; discriminate X.
  - let t := eval vm_compute in (tree bare_group) in change (tree bare_group) with t.
    eapply (un_group "g" [] [(Some "x", "*")]).
    + do 14 eexists. exists (NParen [NColumn "g"]). split; [reflexivity|]. split; [left; reflexivity|]. left. apply wraps_paren. constructor.
    + apply P. reflexivity.
    + intros [X|[]]. discriminate X.
    + intros e w [X|[]]. discriminate X.
  - exists []. split; [|constructor; [discriminate|intros []]].
    let t := eval vm_compute in (tree no_from) in change (tree no_from) with t.
    eapply sn_alone; [apply vi_list; left; reflexivity|reflexivity|]. apply sn_here.
Qed.
