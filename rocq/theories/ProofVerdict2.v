(** C61: files and runs. *)
From Verif Require Import PyStr Lib Tokeniser Ast Parser Render Validate Api PyTokens FileHandler Grammar SpecVal SpecFile SpecRound SpecStable PyTokenize SpecTokenize SpecSource SpecRun
  ProofFile ProofFile2 ProofFile3 ProofSource ProofRun ProofRun2 ProofRun3 ProofTokenize6 SpecSame SpecModes ProofModes ProofModes4 SpecVerdict ProofAgain ProofVerdict.
Local Open Scope str_scope.
Local Open Scope list_scope.

Section Tokens.
  Variable vf : bool.    (* did the formatting run validate too *)
  Definition renewed (t : pytok) (r : list pytok) (t2 : pytok) : Prop := t_type t2 = t_type t /\ t_text t2 = new_text true vf t r.

  Lemma renewed_cases : forall t r t2, renewed t r t2 -> t_text t2 = t_text t \/ (sql_string t = true /\ t_text t2 = rewritten (t_text t)).
  Proof. intros t r t2 [_ ->]. apply new_text_cases. Qed.
  Lemma renewed_sql : forall t r t2, steady_query t -> renewed t r t2 -> sql_string t2 = sql_string t.
  Proof.
    intros t r t2 S H. assert (TY := proj1 H). destruct (renewed_cases t r t2 H) as [E|[Q E]]; unfold sql_string in *; rewrite TY, E; auto.
    destruct (steady_literal t S Q) as (v & A & B & H1 & _ & _ & H4 & _). unfold sql_string in Q. destruct (t_type t); try discriminate Q. rewrite Q. unfold rewritten. rewrite H1. exact H4.
  Qed.
  Lemma renewed_nv : forall t r t2, steady_query t -> renewed t r t2 -> contains "nosqlvalidation" (t_text t2) = contains "nosqlvalidation" (t_text t).
  Proof.
    intros t r t2 S H. destruct (renewed_cases t r t2 H) as [E|[Q E]]; rewrite E; auto.
    destruct (steady_literal t S Q) as (v & A & B & H1 & _ & _ & _ & H5). unfold rewritten. rewrite H1. exact H5.
  Qed.
  Lemma renewed_query : forall t r t2, steady_query t -> renewed t r t2 -> sql_string t = true -> exists v w Q Q', handle_sql_string (t_text t) = Ok (v, Q)
    /\ handle_sql_string (t_text t2) = Ok (w, Q') /\ forall ord, errors_of ord (q_sql Q') = errors_of ord (q_sql Q).
  Proof.
    intros t r t2 S H Q. destruct (steady_literal t S Q) as (v & A & B & H1 & H2 & H3 & _). destruct (renewed_cases t r t2 H) as [E|[_ E]]; rewrite E.
    - exists v, v, A, A. auto.
    - exists v, v, A, B. unfold rewritten. rewrite H1. auto.
  Qed.

  Fixpoint anew (ts ts2 : list pytok) : Prop :=
    match ts, ts2 with
    | [], [] => True
    | t :: r, t2 :: r2 => renewed t r t2 /\ steady_query t /\ anew r r2
    | _, _ => False
    end.
  Lemma anew_tokens : forall ts ts2, map (fun t => (t_type t, t_text t)) ts2 = map (fun t => (t_type t, t_text t)) (new_tokens true vf ts) ->
    (forall t, In t ts -> steady_query t) -> anew ts ts2.
  Proof.
    induction ts as [|t r IH]; intros [|t2 r2] H S; try discriminate; cbn [anew]; auto. cbn [map new_tokens t_type t_text] in H. injection H as A B C.
    split; [split; auto|]. split; [apply S; left; auto|]. apply IH; auto. intros; apply S; right; auto.
  Qed.
  Lemma anew_find : forall ts ts2, anew ts ts2 -> match find is_marker ts, find is_marker ts2 with
    | Some x, Some y => t_type y = t_type x /\ contains "nosqlvalidation" (t_text y) = contains "nosqlvalidation" (t_text x)
    | None, None => True | _, _ => False end.
  Proof.
    induction ts as [|t r IH]; intros [|t2 r2] H; cbn [anew] in H; try contradiction; cbn [find]; auto. destruct H as (A & B & C).
    rewrite (marker_type t2 t) by apply A. destruct (is_marker t); [|apply IH; exact C]. split; [apply A|eapply renewed_nv; eauto].
  Qed.
  Lemma anew_nil : forall ts ts2, anew ts ts2 -> (ts = [] <-> ts2 = []).
  Proof. intros [|t r] [|t2 r2] H; cbn in H; try contradiction; split; intros; congruence. Qed.
  Lemma anew_checked : forall t r t2 r2, renewed t r t2 -> steady_query t -> anew r r2 -> checked true t2 r2 = checked true t r.
  Proof.
    intros t r t2 r2 A B C. unfold checked. rewrite (renewed_sql t r t2 B A). f_equal. assert (F := anew_find r r2 C). assert (N := anew_nil r r2 C).
    destruct r as [|y r], r2 as [|y2 r2]; auto; try contradiction.
    destruct (find is_marker (y :: r)), (find is_marker (y2 :: r2)); try contradiction; auto. destruct F as [_ F]. rewrite F. reflexivity.
  Qed.

  Variable ord : fields -> fields.
  Lemma anew_reports : forall ts ts2, anew ts ts2 -> map snd (reports ord true ts2) = map snd (reports ord true ts).
  Proof.
    induction ts as [|t r IH]; intros [|t2 r2] H; cbn [anew] in H; try contradiction; auto. destruct H as (A & B & C). cbn [reports]. rewrite !map_app, (IH r2 C). f_equal.
    assert (K := anew_checked t r t2 r2 A B C). unfold report_of. unfold checked in K. rewrite K. clear K. destruct (sql_string t) eqn:Q; cbn [andb]; auto. destruct (match r with [] => true | _ => _ end); auto.
    destruct (renewed_query t r t2 B A Q) as (v & w & Q1 & Q2 & H1 & H2 & H3). unfold query_errors. rewrite H1, H2, H3. destruct (match errors_of ord (q_sql Q1) with Ok es => es | Err _ => _ end); reflexivity.
  Qed.
  Lemma anew_fine : forall ts ts2, anew ts ts2 -> fine ord false true ts -> fine ord false true ts2.
  Proof.
    intros ts ts2 H F a. revert ts ts2 H F. induction a as [|u a IH]; intros ts ts2 H F t2 r2 e E X; subst ts2.
    - destruct ts as [|t r]; [contradiction|]. destruct H as (A & B & C). apply (F [] t r e eq_refl).
      assert (Q : sql_string t = true) by (rewrite <- (renewed_sql t r t2 B A); destruct X as [X _|v q X _ _ _]; [unfold handled in X|unfold checked in X]; apply andb_true_iff in X; apply X).
      destruct (renewed_query t r t2 B A Q) as (v & w & Q1 & Q2 & H1 & H2 & H3). destruct X as [_ X|v' q X X2 X3 X4]; [congruence|].
      apply (fails_validate _ _ _ _ _ _ v Q1); auto; [rewrite <- (anew_checked t r t2 r2 A B C); exact X|]. rewrite H2 in X2. injection X2 as _ <-. rewrite <- H3. exact X3.
    - destruct ts as [|t r]; [contradiction|]. destruct H as (_ & _ & C). apply (IH r (a ++ t2 :: r2) C) with (t := t2) (r := r2) (e := e); auto.
      intros b t' r' e' E. apply (F (t :: b) t' r' e'). rewrite E. reflexivity.
  Qed.
  Lemma format_fine : forall ts, (forall t, In t ts -> steady_query t) -> fine ord false true ts -> fine ord true vf ts.
  Proof.
    intros ts S F a t r e E X. apply (F a t r e E). assert (ST : steady_query t) by (apply S; rewrite E; apply in_or_app; right; left; auto).
    destruct X as [X H|v q X H X3 X4].
    - exfalso. unfold handled in X. apply andb_true_iff in X as [Q _]. destruct (steady_literal t ST Q) as (v & A & B & H1 & _). congruence.
    - apply (fails_validate _ _ _ _ _ _ v q); auto. unfold checked in *. apply andb_true_iff in X as [Q X]. rewrite Q. cbn [andb].
      destruct r; auto. destruct (find is_marker _); auto. apply andb_true_iff in X as [_ ->]. reflexivity.
  Qed.
End Tokens.

Lemma fine_content : forall ord fmt val src ts, tokens_of_file src ts -> fine ord fmt val ts ->
  exists r, compute_file_content ord fmt val ts None = Ok r /\ r_invalid r = length (reports ord val ts) /\ r_locs r = reports ord val ts
    /\ compute_tokens ord fmt val ts None = Ok (mk_c (new_tokens fmt val ts) (differences ts (new_tokens fmt val ts)) (length (reports ord val ts)) (reports ord val ts)).
Proof.
  intros ord fmt val src ts T F. pose proof (compute_tokens_spec ord fmt val ts None) as SP. destruct (compute_tokens ord fmt val ts None) as [st|e] eqn:C.
  - destruct SP as (-> & _). pose proof (new_tokens_place fmt val ts) as P.
    assert (P1 : Forall2 same_place ts (new_tokens fmt val ts)) by (clear -P; induction P as [|? ? ? ? [A _]]; constructor; auto).
    destruct (untokenize_respelled src _ _ T P1) as (c & U & _). unfold compute_file_content. rewrite C. cbn [rbind c_tokens]. rewrite U. cbn [rbind]. eexists. split; [reflexivity|]. cbn. auto.
  - exfalso. destruct SP as [SP|(a & t & r & E & X)]; [discriminate|]. apply (F a t r e E X).
Qed.

(** One file: validated, formatted, validated again *)
Theorem file_again : forall word ord vf src ts eos r1, ordinary word src = true -> generate_tokens word src = (ts, eos) -> (forall t, In t ts -> steady_query t) ->
  compute_file_content ord false true ts eos = Ok r1 ->
  exists r2, compute_file_content ord true vf ts eos = Ok r2 /\
  exists ts3 eos3 r3, generate_tokens word (r_content r2) = (ts3, eos3) /\ compute_file_content ord false true ts3 eos3 = Ok r3
    /\ r_invalid r3 = r_invalid r1 /\ map snd (r_locs r3) = map snd (r_locs r1).
Proof.
  intros word ord vf src ts eos r1 O G S C1. destruct (ordinary_described word src O) as (ts0 & G0 & T & _). rewrite G in G0. injection G0 as <- ->.
  assert (F1 : fine ord false true ts).
  { unfold compute_file_content in C1. inv_bind C1. pose proof (compute_tokens_spec ord false true ts None) as SP. rewrite Hb in SP. tauto. }
  destruct (fine_content ord false true src ts T F1) as (r & R1 & R2 & R3 & _). rewrite C1 in R1. injection R1 as <-.
  destruct (fine_content ord true vf src ts T (format_fine vf ord ts S F1)) as (r2 & B1 & _ & _ & CT). exists r2. split; [exact B1|].
  destruct (ordinary_again word ord true vf src ts None _ r2 O G CT B1) as (O2 & ts3 & G3 & K); [intros t I; apply steady_between; auto|]. cbn [c_tokens] in K.
  assert (AN := anew_tokens vf ts ts3 K S). destruct (ordinary_described word _ O2) as (ts' & G' & T3 & _). rewrite G3 in G'. injection G' as <-.
  destruct (fine_content ord false true _ ts3 T3 (anew_fine vf ord ts ts3 AN F1)) as (r3 & D1 & D2 & D3 & _). exists ts3, None, r3. split; auto. split; auto.
  assert (MS := anew_reports vf ord ts ts3 AN). rewrite D2, D3, R2, R3. split; [|exact MS]. apply (f_equal (@length _)) in MS. rewrite !map_length in MS. exact MS.
Qed.

(** Runs *)
Section Runs.
  Variable E : env.
  Variable word : N -> bool.
  Variables v w v' w' : bool.
  Let Oc : options := mk_opts false false v w.
  Let Of : options := mk_opts true false v' w'.
  Hypothesis VW : v || w = true.
  Hypothesis GT : gen_tokens E = generate_tokens word.

  Definition settled (f : str) (c : N -> str) : Prop :=
    write_error E f = None /\ ordinary word (c (file_id E f)) = true /\ forall t, In t (fst (generate_tokens word (c (file_id E f)))) -> steady_query t.

  Lemma file_done : forall f c r1, settled f c -> analysed E Oc f c = Done r1 ->
    exists r2, analysed E Of f c = Done r2 /\ forall c3, c3 (file_id E f) = after E Of f c (Done r2) (file_id E f) ->
    exists r3, analysed E Oc f c3 = Done r3 /\ r_invalid r3 = r_invalid r1 /\ map snd (r_locs r3) = map snd (r_locs r1).
  Proof.
    intros f c r1 (WE & O & S) A. assert (A0 := A). unfold analysed in A. destruct (open_error E f) eqn:OE; [discriminate|]. unfold result in A. rewrite GT in A.
    destruct (generate_tokens word (c (file_id E f))) as [ts eos] eqn:G. cbn [fst f_format f_check f_validate f_verbose Oc orb] in A, S. rewrite VW in A.
    destruct (compute_file_content (set_order E) false true ts eos) as [x|] eqn:C; [|discriminate]. rewrite andb_false_r in A. injection A as <-.
    destruct (file_again word (set_order E) (v' || w') _ ts eos x O G S C) as (r2 & C2 & ts3 & eos3 & r3 & G3 & C3 & I3 & L3). exists r2. split.
    - unfold analysed. rewrite OE. unfold result. rewrite GT, G. cbn [f_format f_check f_validate f_verbose Of orb]. rewrite C2, WE. destruct (_ && _); reflexivity.
    - intros c3 K. cbn [after f_format Of] in K. rewrite andb_true_r in K. destruct (0 <? r_changed r2).
      + unfold upd in K. rewrite N.eqb_refl in K. exists r3. split; auto. unfold analysed. rewrite OE. unfold result. rewrite GT, K, G3.
        cbn [f_format f_check f_validate f_verbose Oc orb]. rewrite VW, C3, andb_false_r. reflexivity.
      + exists x. split; auto. rewrite <- A0. apply analysed_local. exact K.
  Qed.

  Definition again (a b : step) : Prop :=
    match a, b with
    | Invalid, Invalid => True
    | Did f _ (Done r), Did g _ (Done r') => f = g /\ r_invalid r' = r_invalid r /\ map snd (r_locs r') = map snd (r_locs r)
    | _, _ => False
    end.
  Lemma again_events : forall a b, again a b -> Forall2 same_but_line (events Oc a) (events Oc b) /\ (w = false -> events Oc b = events Oc a).
  Proof.
    intros [|f x [e h|r]] [|g y [e' h'|r']] H; cbn in H; try contradiction.
    - split; auto. constructor; [left|constructor]; auto.
    - destruct H as (<- & I & L). cbn [events f_format f_check f_validate f_verbose Oc]. rewrite I.
      assert (N : forall (n : bool), (if n then [] else []) = @nil event) by (intros []; auto). rewrite !N. cbn [app].
      split; [|intros ->; reflexivity]. constructor; [left; auto|]. destruct (_ && _); [|constructor]. constructor; [left; auto|]. destruct w; [|constructor].
      revert L. generalize (r_locs r) (r_locs r'). induction l as [|[m a] l IH]; intros [|[n b] k] L; try discriminate; cbn [map fst snd] in *; constructor.
      + injection L as -> _. right. exists m, n, (join ", " a). auto.
      + injection L as _ L. apply IH. exact L.
  Qed.
  Lemma again_sum : forall g a b, (forall r r', r_invalid r' = r_invalid r -> g r' = g r) -> Forall2 again a b -> sum g b = sum g a.
  Proof.
    intros g a b G H. unfold sum. f_equal. induction H as [|x y a b H _ IH]; auto. cbn [map]. rewrite IH. f_equal.
    destruct x as [|f x [e h|r]], y as [|g' y [e' h'|r']]; cbn in H; try contradiction; auto. apply G. apply H.
  Qed.

  Theorem verdict_again : forall srcs c code1 w1 code2 w2 code3 w3,
    no_links E srcs -> (forall f, In (Some f) (files E srcs) -> settled f c) ->
    handle_inputs E Oc srcs (start c) = (code1, w1) -> no_complaint (trace w1) ->
    handle_inputs E Of srcs (start c) = (code2, w2) ->
    handle_inputs E Oc srcs (start (contents w2)) = (code3, w3) ->
    Forall2 same_but_line (trace w1) (trace w3) /\ (w = false -> trace w3 = trace w1) /\ code3 = code1.
  Proof.
    intros srcs c code1 w1 code2 w2 code3 w3 D ST H1 NC H2 H3.
    destruct (run_plan E Oc c srcs code1 w1 D H1) as (_ & T1 & X1). destruct (run_plan E Of c srcs code2 w2 D H2) as (C2 & _). destruct (run_plan E Oc (contents w2) srcs code3 w3 D H3) as (_ & T3 & X3).
    rewrite T1 in NC. assert (PI : forall x, In x (plan E [] (files E srcs)) -> In x (files E srcs)) by (intros x I; apply (plan_in E _ _ _ I)).
    assert (DN : forall f, In (Some f) (plan E [] (files E srcs)) -> exists r, analysed E Oc f c = Done r).
    { intros f I. assert (K := all_done Oc _ (canon E Oc c (Some f)) _ NC). cbn [canon done] in K. destruct (analysed E Oc f c) eqn:AN; [|eexists; reflexivity].
      exfalso. apply K. apply (in_map (canon E Oc c)) in I. revert I. cbn [canon]. rewrite AN. auto. }
    assert (AG : Forall2 again (map (canon E Oc c) (plan E [] (files E srcs))) (map (canon E Oc (contents w2)) (plan E [] (files E srcs)))).
    { assert (K : forall x, In x (plan E [] (files E srcs)) -> again (canon E Oc c x) (canon E Oc (contents w2) x)).
      2:{ revert K. generalize (plan E [] (files E srcs)). induction l as [|x l IH]; intros K; cbn [map]; constructor; [apply K; left; auto|apply IH; intros; apply K; right; auto]. }
      intros [f|] I; cbn [canon]; [|cbn; auto]. destruct (DN f I) as (r1 & R1). destruct (find (at_id E (file_id E f)) (plan E [] (files E srcs))) as [[g|]|] eqn:FD.
      - destruct (find_some _ _ FD) as [IG KG]. cbn in KG. apply N.eqb_eq in KG.
        (* the file of the plan with this identity *)
        assert (SG : settled f c) by (apply ST; auto). destruct (DN g IG) as (rg & RG). destruct (file_done f c r1 SG R1) as (r2 & F2 & F3).
        destruct (file_done g c rg (ST g (PI _ IG)) RG) as (r2' & F2' & _).
        assert (r2' = r2) as ->.
        { unfold analysed, result in F2, F2'. rewrite KG in F2'. destruct (open_error E f); [discriminate|]. destruct (open_error E g); [discriminate|].
          destruct (gen_tokens E (c (file_id E f))) as [ts eos]. destruct (compute_file_content _ _ _ ts eos) as [x|]; [|discriminate].
          destruct (ST g (PI _ IG)) as (WG & _). destruct SG as (WF & _). rewrite WF in F2. rewrite WG in F2'. destruct (_ && _); congruence. }
        destruct (F3 (contents w2)) as (r3 & A3 & B3 & C3).
        { rewrite C2. unfold later. rewrite FD, F2'. cbn [after]. rewrite KG. reflexivity. }
        rewrite R1, A3. cbn. auto.
      - apply find_some in FD as [_ K]. discriminate K.
      - assert (K := List.find_none _ _ FD _ I). cbn in K. rewrite N.eqb_refl in K. discriminate K. }
    assert (SI : forall g, (forall r r', r_invalid r' = r_invalid r -> g r' = g r) -> sum g (map (canon E Oc (contents w2)) (plan E [] (files E srcs))) = sum g (map (canon E Oc c) (plan E [] (files E srcs)))) by (intros; apply again_sum; auto).
    assert (SM : summary Oc (map (canon E Oc (contents w2)) (plan E [] (files E srcs))) = summary Oc (map (canon E Oc c) (plan E [] (files E srcs)))).
    { unfold summary, invalid_files, invalid_queries. cbn [f_format f_check orb Oc app]. rewrite !SI; auto. intros r r' ->. reflexivity. }
    rewrite T1, T3, SM. split; [|split].
    - apply Forall2_app; [|generalize (summary Oc (map (canon E Oc c) (plan E [] (files E srcs)))); induction l; constructor; auto; left; auto].
      clear -AG VW. induction AG as [|x y a b H _ IH]; cbn [flat_map]; [constructor|]. apply Forall2_app; auto. apply again_events. exact H.
    - intros W. f_equal. clear -AG W VW. induction AG as [|x y a b H _ IH]; cbn [flat_map]; auto. rewrite IH. f_equal. apply again_events; auto.
    - rewrite X1, X3. cbn [f_check Oc andb orb]. unfold invalid_queries. rewrite SI; auto.
  Qed.
End Runs.

Definition read_tree (s : str) : node := match parse_sql s with Ok n => n | Err _ => NNull end.
Lemma steady_check : forall t p q body, t_text t = p ++ q ++ body ++ q -> mem p ["" ; "f"] = true -> mem q [""""; "'"] = true ->
    forallb (fun c => negb (N.eqb c (quote_of q)) && negb (N.eqb c 92)) body = true -> snd (to_tokens body) = None -> statement (read_tree body) = true ->
    Forall2 SpecRound.reads (entries (read_tree body)) (fst (to_tokens body)) -> plainly (read_tree body) ->
    contains "nosqlvalidation" (rewritten (t_text t)) = contains "nosqlvalidation" (t_text t) -> steady_query t.
Proof.
  intros t p q body T P Q B E S F PL NV _. exists p, q, body, (read_tree body), (fst (to_tokens body)). destruct (to_tokens body) as [ts o]. cbn [fst snd] in *. subst o.
    assert (B1 := B). rewrite forallb_forall in B1.
    assert (LP : p = "" \/ p = "f") by (unfold mem in P; apply existsb_exists in P as (x & I & X); apply str_eqb_eq in X; subst x; cbn in I; intuition auto).
    assert (LQ : q = """" \/ q = "'") by (unfold mem in Q; apply existsb_exists in Q as (x & I & X); apply str_eqb_eq in X; subst x; cbn in I; intuition auto).
    split; [exact T|]. split; [unfold legal_prefix; destruct LP; subst; cbn; auto|]. split; [unfold legal_quote; destruct LQ; subst; cbn; auto|].
    split; [intros I; apply B1 in I; rewrite N.eqb_refl in I; discriminate I|]. split; [intros I; apply B1 in I; rewrite andb_false_r in I; discriminate I|].
    split; [reflexivity|]. split; [exact S|]. split; [exact F|]. split; [exact PL|exact NV].
Qed.

(** Files of steady queries stay ordinary *)
Theorem steady_again : forall word ord fmt val src ts eos st r, ordinary word src = true -> generate_tokens word src = (ts, eos) ->
  compute_tokens ord fmt val ts eos = Ok st -> compute_file_content ord fmt val ts eos = Ok r -> (forall t, In t ts -> steady_query t) ->
  ordinary word (r_content r) = true
  /\ exists ts2, generate_tokens word (r_content r) = (ts2, None)
     /\ map (fun t => (t_type t, t_text t)) ts2 = map (fun t => (t_type t, t_text t)) (c_tokens st).
Proof. intros. eapply ordinary_again; eauto using steady_between. Qed.

Definition weekday_env : env := {|
  isdir _ := false; isfile _ := true; walk _ := []; abspath s := s; file_id _ := 1%N; open_error _ := None;
  gen_tokens := generate_tokens (fun _ => false); write_error _ := None; set_order x := x |}.
Definition weekday_file (k : N) : str := "x = 'select monday from (select a monday from t)'
".
Theorem weekday_invalid : exists E word srcs c w2 w3,
  gen_tokens E = generate_tokens word /\ no_links E srcs
  /\ (forall f, In (Some f) (files E srcs) -> write_error E f = None /\ ordinary word (c (file_id E f)) = true)
  /\ (exists w1, handle_inputs E (mk_opts false false true false) srcs (start c) = (0, w1) /\ In (EPrint "No invalid queries found.") (trace w1))
  /\ handle_inputs E (mk_opts true false false false) srcs (start c) = (0, w2)
  /\ handle_inputs E (mk_opts false false true false) srcs (start (contents w2)) = (1, w3)
  /\ In (EPrint "1 file detected with invalid SQL (1 invalid SQL query).") (trace w3).
Proof.
  assert (A : fst (handle_inputs weekday_env (mk_opts false false true false) ["a.py"] (start weekday_file)) = 0
    /\ trace (snd (handle_inputs weekday_env (mk_opts false false true false) ["a.py"] (start weekday_file))) = [ERead "a.py"; EPrint "No invalid queries found."]) by (vm_compute; auto).
  assert (B : fst (handle_inputs weekday_env (mk_opts true false false false) ["a.py"] (start weekday_file)) = 0) by (vm_compute; auto).
  assert (C : let c2 := contents (snd (handle_inputs weekday_env (mk_opts true false false false) ["a.py"] (start weekday_file))) in
    fst (handle_inputs weekday_env (mk_opts false false true false) ["a.py"] (start c2)) = 1
    /\ trace (snd (handle_inputs weekday_env (mk_opts false false true false) ["a.py"] (start c2)))
       = [ERead "a.py"; EPrint "invalid queries in a.py (1 invalid SQL)"; EPrint "1 file detected with invalid SQL (1 invalid SQL query)."]) by (vm_compute; auto).
  cbv zeta in C. exists weekday_env, (fun _ => false), ["a.py"], weekday_file.
  destruct (handle_inputs weekday_env (mk_opts true false false false) ["a.py"] (start weekday_file)) as [n2 w2] eqn:H2. cbn [fst snd] in *.
  destruct (handle_inputs weekday_env (mk_opts false false true false) ["a.py"] (start (contents w2))) as [n3 w3] eqn:H3. cbn [fst snd] in C.
  exists w2, w3. split; [reflexivity|]. split; [intros f g F G _; vm_compute in F, G; destruct F as [F|[]], G as [G|[]]; injection F as <-; injection G as <-; reflexivity|].
  split; [intros f F; split; [reflexivity|vm_compute; reflexivity]|].
  split; [|subst n2; destruct C as [-> C]; split; auto; split; auto; rewrite C; cbn [In]; auto].
  destruct (handle_inputs weekday_env (mk_opts false false true false) ["a.py"] (start weekday_file)) as [n1 w1]. cbn [fst snd] in A. destruct A as [-> A]. exists w1. split; auto. rewrite A. cbn [In]. auto.
Qed.
