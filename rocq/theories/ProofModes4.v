(** C58 for whole runs; C59: the other inputs do not matter. *)
From Verif Require Import PyStr Lib Tokeniser Ast Parser Render Validate Api PyTokens FileHandler
  SpecVal SpecFile SpecRun ProofFile ProofFile2 ProofRun ProofRun2 SpecModes ProofModes ProofModes2 ProofModes3 Digits.
From Coq Require Import Permutation.
Local Open Scope str_scope.
Local Open Scope list_scope.

Definition done (s : step) : Prop := match s with Did _ _ (Failed _ _) => False | _ => True end.
Lemma all_done : forall O l s t, no_complaint (flat_map (events O) l ++ t) -> In s l -> done s.
Proof.
  intros O l s t H I. destruct s as [|f b [e h|r]]; cbn; auto. apply (H f e). apply in_or_app. left. apply in_flat_map.
  exists (Did f b (Failed e h)). split; auto. cbn [events]. right. apply in_or_app. right. left. unfold complaint. reflexivity.
Qed.
Definition fsame (a b : step) : Prop :=
  match a, b with
  | Invalid, Invalid => True
  | Did f x (Done r), Did g y (Done r') => f = g /\ x = y /\ r_changed r' = r_changed r /\ r_content r' = r_content r
  | _, _ => False
  end.

Section Format.
  Variable E : env.
  Variables v w : bool.
  Let O1 : options := mk_opts true false v w.
  Let O2 : options := mk_opts true false false false.

  Lemma analysed_format : forall f c r, analysed E O1 f c = Done r ->
    exists r', analysed E O2 f c = Done r' /\ r_changed r' = r_changed r /\ r_content r' = r_content r.
  Proof.
    intros f c r H. unfold analysed in *. destruct (open_error E f); [discriminate|]. unfold result in *.
    destruct (gen_tokens E _) as [ts eos]. cbn [f_format f_check f_validate f_verbose orb O1 O2] in *.
    destruct (compute_file_content (set_order E) true (v || w) ts eos) as [x|] eqn:C; [|discriminate].
    assert (X : exists r', compute_file_content (set_order E) true false ts eos = Ok r' /\ r_changed r' = r_changed x /\ r_content r' = r_content x).
    { destruct (v || w); [apply (format_alone _ _ _ _ C)|eauto]. }
    destruct X as (r' & -> & A & B). rewrite A. destruct (_ && true); [destruct (write_error E f) as [[]|]; [discriminate|]|]; injection H as <-; eauto.
  Qed.
  Lemma log_format : forall l seen c, (forall s, In s (log E O1 seen c l) -> done s) -> Forall2 fsame (log E O1 seen c l) (log E O2 seen c l).
  Proof.
    induction l as [|[f|] l IH]; intros seen c D; cbn [log] in *; [constructor| |].
    - destruct (mem (abspath E f) seen); [apply IH; auto|].
      assert (DF := D _ (or_introl eq_refl)). cbn in DF. destruct (analysed E O1 f c) as [|r] eqn:A; [destruct DF|].
      destruct (analysed_format f c r A) as (r' & A' & B & K). rewrite A'. constructor; [cbn; auto|].
      assert (AF : after E O2 f c (Done r') = after E O1 f c (Done r)) by (cbn [after]; rewrite B, K; reflexivity).
      rewrite AF. apply IH. intros s I. apply D. right. exact I.
    - constructor; [exact I|]. apply IH. intros s I. apply D. right. exact I.
  Qed.
  Lemma contents_format : forall a b, Forall2 fsame a b -> forall c, contents_after E O2 c b = contents_after E O1 c a.
  Proof.
    induction 1 as [|x y a b H _ IH]; intros c; auto. destruct x as [|f x [e h|r]], y as [|g y [e' h'|r']]; cbn in H; try tauto.
    - cbn [contents_after]. apply IH.
    - destruct H as (-> & -> & A & B). cbn [contents_after]. rewrite IH. f_equal. cbn [after]. rewrite A, B. reflexivity.
  Qed.
  Lemma not_format : forall c x, c <> 114%N -> c <> 119%N -> about_format (EPrint (c :: x)) = false.
  Proof. 
    intros c x A B. unfold about_format. apply orb_false_iff. split; apply not_true_is_false; intros H; apply startswith_true in H as [r H]; injection H as H _; auto.
  Qed.
  Lemma filter_none : forall {A} (p : A -> bool) l, Forall (fun x => p x = false) l -> filter p l = [].
  Proof. induction 1 as [|x l H _ IH]; cbn; auto. rewrite H. auto. Qed.
  Lemma filter_all : forall {A} (p : A -> bool) l, Forall (fun x => p x = true) l -> filter p l = l.
  Proof. induction 1 as [|x l H _ IH]; cbn; auto. rewrite H. f_equal. auto. Qed.
  Definition val_lines (O : options) (f : str) (r : cresult) : list event :=
    if (0 <? r_invalid r) && (f_validate O || f_verbose O) then
      EPrint ("invalid queries in " ++ f ++ " (" ++ str_of_nat (r_invalid r) ++ " invalid SQL)")
      :: (if f_verbose O then map (fun l => EPrint ("L" ++ str_of_Z (fst l) ++ " - " ++ join ", " (snd l))) (r_locs r) else [])
    else [].
  Lemma val_lines_not : forall O f r, Forall (fun e => about_format e = false) (val_lines O f r).
  Proof.
    intros O f r. unfold val_lines. destruct (_ && _); [|constructor]. constructor; [apply not_format; discriminate|].
    destruct (f_verbose O); [|constructor]. apply Forall_forall. intros e I. apply in_map_iff in I as (l & <- & _). apply not_format; discriminate.
  Qed.
  Lemma str_of_nat_not : forall n s, about_format (EPrint (str_of_nat n ++ " file" ++ s)) = false.
  Proof.
    intros n s. unfold about_format. apply orb_false_iff. split; apply not_true_is_false;
      intros H; apply startswith_true in H as [r H]; destruct (str_of_nat n) as [|d m] eqn:D.
    - discriminate H.
    - injection H as -> _. revert D. unfold str_of_nat. intros D. assert (DD := str_of_N_digits (N.of_nat n)). rewrite D in DD. cbn in DD. discriminate DD.
    - discriminate H.
    - injection H as -> _. revert D. unfold str_of_nat. intros D. assert (DD := str_of_N_digits (N.of_nat n)). rewrite D in DD. cbn in DD. discriminate DD.
  Qed.
  Lemma summary_not : forall O l, Forall (fun e => about_format e = false) (summary O l).
  Proof.
    intros O l. unfold summary. apply Forall_app. split.
    - destruct (_ || _); [|constructor]. constructor; [|constructor]. unfold format_summary. destruct (0 <? _); [apply str_of_nat_not|apply not_format; discriminate].
    - destruct (f_validate O); [|constructor]. constructor; [|constructor]. unfold validation_summary. destruct (0 <? _); [apply str_of_nat_not|apply not_format; discriminate].
  Qed.
  Lemma filter_flat : forall {A B} (p : B -> bool) (g : A -> list B) l, filter p (flat_map g l) = flat_map (fun x => filter p (g x)) l.
  Proof. induction l as [|x l IH]; cbn [flat_map]; auto. rewrite filter_app, IH. reflexivity. Qed.
  Lemma events_done : forall O f b r, events O (Did f b (Done r)) = ERead f ::
     (if 0 <? r_changed r then
        if f_format O then [EWrite f (r_content r); EPrint (message "reformatted" f (r_changed r))]
        else if f_check O then [EPrint (message "would reformat" f (r_changed r))] else []
      else []) ++ val_lines O f r.
  Proof. reflexivity. Qed.
  Lemma message_about : forall f n, about_format (EPrint (message "reformatted" f n)) = true /\ about_format (EPrint (message "would reformat" f n)) = true.
  Proof.
    intros f n. unfold about_format, message. split.
    - change ("reformatted" ++ " " ++ f ++ " (" ++ str_of_nat n ++ " changed SQL)") with ("reformatted " ++ f ++ " (" ++ str_of_nat n ++ " changed SQL)").
      rewrite Lib.startswith_app. reflexivity.
    - change ("would reformat" ++ " " ++ f ++ " (" ++ str_of_nat n ++ " changed SQL)") with ("would reformat " ++ f ++ " (" ++ str_of_nat n ++ " changed SQL)").
      rewrite Lib.startswith_app. apply orb_true_r.
  Qed.

  Theorem format_same : forall srcs c code1 w1 code2 w2,
    handle_inputs E O1 srcs (start c) = (code1, w1) -> no_complaint (trace w1) -> handle_inputs E O2 srcs (start c) = (code2, w2) ->
    contents w2 = contents w1 /\ filter about_format (trace w2) = filter about_format (trace w1).
  Proof.
    intros srcs c code1 w1 code2 w2 H1 NC H2.
    pose proof (run_refines E O1 srcs c) as R1. rewrite H1 in R1. cbv zeta in R1. destruct R1 as (C1 & T1 & _).
    pose proof (run_refines E O2 srcs c) as R2. rewrite H2 in R2. cbv zeta in R2. destruct R2 as (C2 & T2 & _).
    rewrite T1 in NC. assert (F := log_format (files E srcs) [] c (fun s => all_done O1 _ s _ NC)).
    split; [rewrite C1, C2; apply contents_format; exact F|].
    rewrite T1, T2, !filter_app, !(filter_none about_format (summary _ _)), !app_nil_r by apply summary_not. rewrite !filter_flat.
    clear - F. induction F as [|x y a b H _ IH]; cbn [flat_map]; auto. rewrite IH. f_equal.
    destruct x as [|f x [e h|r]], y as [|g y [e' h'|r']]; cbn in H; try tauto. destruct H as (-> & -> & A & B).
    rewrite !events_done. cbn [filter about_format]. rewrite !filter_app, !(filter_none about_format (val_lines _ _ _)) by apply val_lines_not.
    cbn [f_format O1 O2]. rewrite A, B. reflexivity.
  Qed.
End Format.

Section Validate.
  Variable E : env.
  Variables fm v w : bool.
  Let O1 : options := mk_opts fm (negb fm) v w.
  Let O2 : options := mk_opts false false v w.
  Hypothesis VW : v || w = true.

  Lemma analysed_validate : forall f c r, analysed E O1 f c = Done r ->
    exists r', analysed E O2 f c = Done r' /\ r_invalid r' = r_invalid r /\ r_locs r' = r_locs r.
  Proof.
    intros f c r H. unfold analysed in *. destruct (open_error E f); [discriminate|]. unfold result in *.
    destruct (gen_tokens E _) as [ts eos]. cbn [f_format f_check f_validate f_verbose O1 O2] in *. rewrite VW in *.
    assert (FM : fm || negb fm = true) by (destruct fm; auto). rewrite FM in H. cbn [orb].
    destruct (compute_file_content (set_order E) true true ts eos) as [x|] eqn:C; [|discriminate].
    destruct (validate_alone _ _ _ _ C) as (r' & -> & A & B). exists r'. rewrite andb_false_r. split; auto.
    assert (x = r) as <-; [|auto]. destruct (_ && fm); [destruct (write_error E f) as [[]|]; [discriminate|]|]; injection H as <-; auto.
  Qed.
  Lemma fmt_lines : forall f r, Forall (fun e => negb (about_format e) = false)
     (if 0 <? r_changed r then
        if f_format O1 then [EWrite f (r_content r); EPrint (message "reformatted" f (r_changed r))]
        else if f_check O1 then [EPrint (message "would reformat" f (r_changed r))] else []
      else []).
  Proof.
    intros f r. destruct (0 <? r_changed r); [|constructor]. destruct (message_about f (r_changed r)) as [A B].
    destruct (f_format O1); [|destruct (f_check O1)]; repeat constructor; rewrite ?A, ?B; reflexivity.
  Qed.
  Theorem validate_same : forall srcs c code1 w1 code2 w2, no_links E srcs ->
    handle_inputs E O1 srcs (start c) = (code1, w1) -> no_complaint (trace w1) -> handle_inputs E O2 srcs (start c) = (code2, w2) ->
    (exists t x s, trace w1 = t ++ EPrint x :: s /\ trace w2 = filter (fun e => negb (about_format e)) t ++ s)
    /\ (code2 = 1 -> code1 = 1) /\ (fm = true -> code2 = code1).
  Proof.
    intros srcs c code1 w1 code2 w2 NL H1 NC H2.
    destruct (run_plan E O1 c srcs _ _ NL H1) as (_ & T1 & X1). destruct (run_plan E O2 c srcs _ _ NL H2) as (_ & T2 & X2). cbv zeta in *.
    set (l := plan E [] (files E srcs)) in *. rewrite T1 in NC. assert (AD := fun s => all_done O1 _ s _ NC).
    assert (K : flat_map (events O2) (map (canon E O2 c) l) = filter (fun e => negb (about_format e)) (flat_map (events O1) (map (canon E O1 c) l))
      /\ (forall g, (forall r r', r_invalid r' = r_invalid r -> g r' = g r) -> sum g (map (canon E O2 c) l) = sum g (map (canon E O1 c) l))).
    { clear - AD VW. induction l as [|x l IH]; [split; auto|]. destruct IH as [IH1 IH2]; [intros s I; apply AD; right; exact I|].
      assert (DX := AD _ (or_introl eq_refl)). cbn [map flat_map]. rewrite filter_app, <- IH1.
      destruct x as [f|].
      - cbn [canon] in *. cbn in DX. destruct (analysed E O1 f c) as [|r] eqn:A; [destruct DX|].
        destruct (analysed_validate f c r A) as (r' & A' & B & L). rewrite A'. split.
        + f_equal. rewrite !events_done. cbn [filter about_format negb]. f_equal.
          rewrite filter_app, (filter_none _ _ (fmt_lines f r)). cbn [f_format f_check O2].
          assert (V : val_lines O2 f r' = val_lines O1 f r) by (unfold val_lines; rewrite B, L; reflexivity).
          rewrite V. rewrite filter_all; [destruct (0 <? r_changed r'); reflexivity|].
          eapply Forall_impl; [|apply val_lines_not]. cbn beta. intros e ->. reflexivity.
        + intros g G. unfold sum in *. cbn [map]. change (list_sum (?a :: ?b)) with (a + list_sum b). rewrite (G r r' B), (IH2 g G). reflexivity.
      - cbn [canon]. split; [f_equal|]. intros g G. unfold sum in *. cbn [map]. change (list_sum (?a :: ?b)) with (a + list_sum b). rewrite (IH2 g G). reflexivity. }
    destruct K as [K1 K2].
    assert (KI : invalid_queries (map (canon E O2 c) l) = invalid_queries (map (canon E O1 c) l)) by (apply K2; auto).
    assert (KF : invalid_files (map (canon E O2 c) l) = invalid_files (map (canon E O1 c) l)) by (apply K2; intros r r' ->; auto).
    split; [|].
    - rewrite T1, T2, K1. unfold summary. cbn [f_format f_check f_validate O1 O2 orb]. rewrite KI, KF.
      assert (FM : fm || negb fm = true) by (destruct fm; auto). rewrite FM. cbn [app]. eauto 6.
    - rewrite X1, X2, KI. cbn [f_check f_validate O1 O2 andb orb]. split.
      + destruct (v && _); [|discriminate]. intros _. rewrite orb_true_r. reflexivity.
      + intros FT. rewrite FT. reflexivity.
  Qed.
End Validate.
