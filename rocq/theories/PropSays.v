(** C67: the exact messages for queries on tables with and without aliases.  Definitions: SpecSays, SpecNamed, SpecTables, SpecScope, SpecReport. *)
From Verif Require Import PyStr Tokeniser Ast AstLib Parser Render Validate Api PyTokens FileHandler Grammar SpecVal SpecScope SpecReport SpecApi SpecAnswer SpecNested SpecStuck SpecTables SpecNamed SpecFile PyTokenize SpecTokenize SpecRun SpecModes
  SpecFailed SpecExact SpecSays ProofNamed ProofExact ProofSays ProofSaid PropTokenize PropExact.
Local Open Scope str_scope.
Local Open Scope list_scope.

(** C67.  A SELECT whose clauses other than FROM are of the fragment, with tables in its FROM clauses, with or without
    aliases, or without FROM: when validation ends, a message is given exactly when something that is looked at deserves it. *)
Theorem C67_named_messages : forall q n ord es m, is_order ord -> parse_sql q = Ok n -> is_sel n = true -> statement (without_from n) = true -> on_named_tables n ->
  errors_of ord q = Ok es -> (In m es <-> exists x S, seen x S [] n /\ says m x S).
Proof. exact named_messages. Qed.
Print Assumptions C67_named_messages.

(** C67.  A run with --verbose-validate over the files of C65: each faulty query that is to be validated, in a file that can be
    analysed, gets a line with exactly the messages it deserves, and the line on which it begins. *)
Theorem C67_verbose : forall E word O srcs c, gen_tokens E = generate_tokens word -> is_order (set_order E) -> one_name E srcs ->
  (forall f, In (Some f) (files E srcs) -> open_error E f = None /\ write_error E f = None /\ ordinary word (c (file_id E f)) = true
     /\ forall t, In t (fst (generate_tokens word (c (file_id E f)))) -> table_query t) ->
  forall code w, handle_inputs E O srcs (start c) = (code, w) -> f_verbose O = true ->
  forall f a t r, In (Some f) (files E srcs) -> ~ halting_file true (fst (generate_tokens word (c (file_id E f)))) ->
    fst (generate_tokens word (c (file_id E f))) = a ++ t :: r -> checked true t r = true -> faulty_query t ->
    exists ms, deserves t ms /\ In (EPrint ("L" ++ str_of_Z (fst (t_start t)) ++ " - " ++ join ", " ms)) (trace w).
Proof. exact verbose_all. Qed.
Print Assumptions C67_verbose.
(** C67.  And there are no other such lines. *)
Theorem C67_verbose_only : forall E word O srcs c, gen_tokens E = generate_tokens word -> is_order (set_order E) -> one_name E srcs ->
  (forall f, In (Some f) (files E srcs) -> open_error E f = None /\ write_error E f = None /\ ordinary word (c (file_id E f)) = true
     /\ forall t, In t (fst (generate_tokens word (c (file_id E f)))) -> table_query t) ->
  forall code w, handle_inputs E O srcs (start c) = (code, w) -> forall m, In (EPrint m) (trace w) -> startswith "L" m = true ->
  f_verbose O = true /\ exists f a t r ms, In (Some f) (files E srcs) /\ ~ halting_file true (fst (generate_tokens word (c (file_id E f))))
    /\ fst (generate_tokens word (c (file_id E f))) = a ++ t :: r /\ checked true t r = true /\ faulty_query t
    /\ deserves t ms /\ ms <> [] /\ m = "L" ++ str_of_Z (fst (t_start t)) ++ " - " ++ join ", " ms.
Proof. exact verbose_only. Qed.
Print Assumptions C67_verbose_only.

Definition tree (q : str) : node := match parse_sql q with Ok n => n | Err _ => NNull end.
Definition many : str :=
  "select x.a, b, y.c from `t` x join (u) as w where x.e and 1 and x.f in (select z.g from `v` z where z.h = y.i and h having 'k' limit -1) group by x.a, j, 7 having 1 + 1 order by 4 offset x.l".
Definition fine : str := "select x.a, w.b from `t` x join (u) as w using (k) where x.e and x.f in (select z.g from `v` z where z.h = w.i limit 1)".
Definition queries : list str := [many; fine].
Example C67_example : forall q, In q queries ->
  parse_sql q = Ok (tree q) /\ is_sel (tree q) = true /\ statement (without_from (tree q)) = true /\ on_named_tables (tree q).
Proof.
  intros q I. unfold queries in I.
  repeat (destruct I as [<-|I]; [split; [vm_compute; reflexivity|]; split; [vm_compute; reflexivity|]; split; [vm_compute; reflexivity|apply on_named_tablesb_ok; vm_compute; reflexivity]|]). destruct I.
Qed.
Example C67_example_messages : errors_of (fun s => s) fine = Ok []
  /\ errors_of (fun s => s) many = Ok ["The column b was not found"; "The column c was not found in alias y"; "Missing ON or USING for join";
       "The argument of AND must be type boolean, not type int"; "The column i was not found in alias y"; "The column h was not found";
       "The argument of HAVING must be type boolean, not type str"; "LIMIT must not be negative"; "column ""j"" does not exist";
       "GROUP BY position 7 is not in select list"; "The argument of HAVING must be type boolean, not type int"; "ORDER BY position 4 is not in select list";
       "argument of OFFSET must be integer"].
Proof. split; vm_compute; reflexivity. Qed.
(** Why some of them are deserved, without the theorem *)
Definition outer : scope := [(Some "x", "*"); (Some "w", "*")].
Example C67_example_says :
  (exists x, seen x (outer ++ [(Some "z", "*")]) [] (tree many) /\ says "The column i was not found in alias y" x (outer ++ [(Some "z", "*")]))
  /\ (exists x, seen x outer [] (tree many) /\ says "The argument of AND must be type boolean, not type int" x outer)
  /\ says "column ""j"" does not exist" (tree many) []
  /\ says "The argument of HAVING must be type boolean, not type int" (tree many) [].
Proof.
  assert (P : forall e S a w, provides e S -> (forall x, In x S -> fst x = None) -> plain a -> provides (NAlias e (inl a) w) (map (fun x => (Some a, snd x)) S)).
  { intros e S a w Pe Ps Pa. apply pv_alias; [exact Pe|exact Pa|exact Ps]. }
  assert (PT : forall v a w, plain a -> provides (NAlias (NTable v false) (inl a) w) [(Some a, "*")]).
  { intros v a w Pa. apply (P _ [(None, "*")]); [constructor|intros x [<-|[]]; reflexivity|exact Pa]. }
  assert (F : forall ty on_ us, provides (NJoin ty (NAlias (NTable (NString "t" "`" None) false) (inl "x") false) (NAlias (NParen [NTable (NColumn "u") false]) (inl "w") true) on_ us) outer).
  { intros. apply (pv_join _ _ _ _ _ [(Some "x", "*")] [(Some "w", "*")]); [apply PT; reflexivity|]. apply (P _ [(None, "*")]); [constructor; constructor|intros x [<-|[]]; reflexivity|reflexivity]. }
  let t := eval vm_compute in (tree many) in change (tree many) with t.
  split; [|split; [|split]].
  - exists (NChained (NColumn "y") (NColumn "i")). split.
    + eapply sn_query; [apply vi_where|reflexivity|apply F|]. do 2 (eapply sn_part; [apply pt_bool_r|]). eapply sn_part; [apply pt_cond_r; discriminate|]. eapply sn_part; [apply pt_paren; left; reflexivity|].
      eapply sn_query; [apply vi_where|reflexivity|apply PT; reflexivity|]. eapply sn_part; [apply pt_bool_l|]. eapply sn_part; [apply pt_cond_r; discriminate|]. apply sn_here.
    + apply (sy_dotted (NColumn "y") (NColumn "i") "y" "i"); [|intros I; cbn in I; intuition discriminate|reflexivity|reflexivity].
      intros b [X|[X|[X|[]]]]; injection X as <-; discriminate.
  - eexists. split; [eapply sn_query; [apply vi_where|reflexivity|apply F|]; eapply sn_part; [apply pt_bool_r|]; apply sn_here|].
    apply (sy_test (upper "and") (NInt 1) _ (NInt 1) "int"); constructor.
  - apply (sy_group "j" [] outer).
    + do 14 eexists. exists (NColumn "j"). split; [reflexivity|]. split; [right; left; reflexivity|]. left. constructor.
    + apply F.
    + intros I. cbn in I. intuition discriminate.
    + intros e w I. cbn in I. intuition discriminate.
  - apply (sy_test "HAVING" (NArith "+" (NInt 1) (NInt 1)) _ (NArith "+" (NInt 1) (NInt 1)) "int"); constructor.
Qed.
(** The files of C65 meet the hypotheses ([exact_files]). *)
Example C67_example_files : (one_name ex_files ["d"]
   /\ forall f, In (Some f) (files ex_files ["d"]) -> open_error ex_files f = None /\ write_error ex_files f = None /\ ordinary ex_word (exact_sources (file_id ex_files f)) = true
     /\ forall t, In t (fst (generate_tokens ex_word (exact_sources (file_id ex_files f)))) -> table_query t)
  /\ trace (snd (exact_run ["d"] (mk_opts false false false true)))
    = [ERead "d/a.py"; EPrintExn "d/a.py" AttributeError; ERead "d/b.py"; EPrint "invalid queries in d/b.py (3 invalid SQL)"; EPrint "L2 - LIMIT must not be negative";
       EPrint "L3 - GROUP BY position 3 is not in select list"; EPrint "L5 - The column g was not found"].
Proof. split; [apply exact_files; left; reflexivity|vm_compute; reflexivity]. Qed.
