(** The tokens Python's tokenizer finds describe the file. *)
From Verif Require Import PyStr Lib PyTokens PyTokenize SpecSource ProofSource ProofLex ProofLex2 ProofTokenize ProofTokenize2 ProofTokenize3 SpecTokenize ProofInside.
Local Open Scope str_scope.
Local Open Scope list_scope.

(** The rest of the file, read as [ts], has tabs, form feeds and the like only in strings and comments;
    [x] is what precedes it *)
Definition tidy (whole x : str) (ts : list ptok) : Prop :=
  forall p, In p UNTIDY -> occurrences p whole <= occurrences p x + inside p (map snd ts).
Definition clean (s : str) (ts : list ptok) : Prop := ~ In 13%N s /\ tidy s [] ts.
Lemma tidy_step : forall whole x y ts0 us, tidy whole x (ts0 ++ us) -> (forall p, inside p (map snd ts0) <= occurrences p y) -> tidy whole (x ++ y) us.
Proof.
  intros whole x y ts0 us T H p I. specialize (T p I). specialize (H p). unfold ptok in *. rewrite map_app, inside_app in T. pose proof (occ_app p x y). lia.
Qed.
Lemma tidy_mute : forall whole x y ts0 us, tidy whole x (ts0 ++ us) -> Forall mute ts0 -> tidy whole (x ++ y) us.
Proof. intros whole x y ts0 us T F. eapply tidy_step; [exact T|]. intros p. assert (inside p (map snd ts0) = 0) as Z by (apply inside_mute; exact F). unfold ptok in *. lia. Qed.
Lemma tidy_one : forall whole x g text e t us, tidy whole x (t :: us) -> t_text (snd t) = text -> tidy whole (x ++ g ++ text ++ e) us.
Proof.
  intros whole x g text e [b t] us T <-. apply (tidy_step whole x _ [(b, t)] us T). intros p. pose proof (occ_r p g (t_text t ++ e)). pose proof (occ_l p (t_text t) e).
  pose proof (inside_one p b t). unfold ptok in *. cbn [snd] in *. lia.
Qed.

Lemma repeat_blank : forall ws, Forall (fun c => blank_c c = true) ws -> ~ In 9%N ws -> ~ In 12%N ws -> ws = blanks (length ws).
Proof.
  intros ws F A B. induction F as [|c ws C _ IH]; auto. cbn. f_equal; [|apply IH; intros X; [apply A|apply B]; right; exact X].
  unfold blank_c in C. cbn [existsb] in C. rewrite orb_false_r in C. apply orb_true_iff in C as [C|C]; [apply N.eqb_eq in C; exact C|].
  apply orb_true_iff in C as [C|C]; apply N.eqb_eq in C; subst; exfalso; [apply B|apply A]; left; reflexivity.
Qed.
Lemma blanks_app : forall j k, blanks (j + k) = blanks j ++ blanks k.
Proof. intros. apply repeat_app. Qed.
Lemma blanks_length : forall k, length (blanks k) = k.
Proof. intros. apply repeat_length. Qed.
Lemma blanks_has : forall k, has 10 (blanks k) = false.
Proof. induction k; auto. Qed.
Lemma width_from : forall j k, fold_left (fun col c => if N.eqb c 32 then col + 1 else if N.eqb c 9 then (col / 8 + 1) * 8 else 0)%Z (blanks j) (Z.of_nat k) = Z.of_nat (k + j).
Proof.
  induction j as [|j IH]; intros k; cbn [blanks repeat fold_left]; [f_equal; lia|]. replace (N.eqb 32 32) with true by reflexivity.
  replace (Z.of_nat k + 1)%Z with (Z.of_nat (S k)) by lia. fold (blanks j). rewrite IH. f_equal. lia.
Qed.
Lemma width_blanks : forall j, width (blanks j) = Z.of_nat j.
Proof. intros j. unfold width. apply (width_from j 0). Qed.

(** Indentations, innermost first *)
Fixpoint nested (ks : list nat) : Prop := match ks with [] => True | k :: r => hd 0 r < k /\ nested r end.
Lemma nested_hd : forall ks k, nested ks -> In k ks -> k <= hd 0 ks.
Proof. induction ks as [|x ks IH]; intros k H I; [destruct I|]. destruct I as [->|I]; [cbn; lia|]. cbn in H. destruct H as [H1 H2]. specialize (IH k H2 I). cbn. lia. Qed.
Lemma drop_exact : forall ks j, nested ks -> j = hd 0 ks \/ In j ks \/ j = 0 ->
  exists ks1 ks2, ks = ks1 ++ ks2 /\ drop_ins (Z.of_nat j) (map Z.of_nat ks) = (length ks1, map Z.of_nat ks2) /\ j = hd 0 ks2 /\ nested ks2.
Proof.
  induction ks as [|k ks IH]; intros j N J; cbn [map drop_ins].
  - exists [], []. repeat split; auto. cbn in *. destruct J as [J|[[]|J]]; exact J.
  - cbn in N. destruct N as [N1 N2]. destruct (Z.ltb_spec (Z.of_nat j) (Z.of_nat k)) as [L|L].
    + destruct (IH j N2) as (ks1 & ks2 & -> & D & E & F).
      { destruct J as [J|[[J|J]|J]]; cbn in J; try lia; auto. }
      exists (k :: ks1), ks2. rewrite D. auto.
    + exists [], (k :: ks). repeat split; auto. cbn. destruct J as [J|[[J|J]|J]]; cbn in J; try lia. pose proof (nested_hd ks j N2 J). lia.
Qed.
Lemma existsb_nat : forall j ks, existsb (Z.eqb (Z.of_nat j)) (map Z.of_nat ks ++ [0%Z]) = true -> In j ks \/ j = 0.
Proof.
  intros j ks H. apply existsb_exists in H as (z & I & E). apply Z.eqb_eq in E. apply in_app_iff in I as [I|[<-|[]]]; [|right; lia].
  apply in_map_iff in I as (k & <- & I). left. replace j with k by lia. exact I.
Qed.

Definition brk (x : str) : Prop := exists x0 c, x = x0 ++ [c] /\ (c = 32%N \/ c = 10%N).
Definition starts (s : str) : Prop := exists c r, s = c :: r /\ blank_c c = false /\ existsb (N.eqb c) [35; 13; 10]%N = false.
Definition pend (ks : list nat) (p : place) (g0 x s : str) : Prop :=
  (p = Within /\ g0 = []) \/ (p = Within /\ g0 = [92; 10]%N /\ brk x) \/ (p = First /\ g0 = [] /\ brk x)
  \/ (p <> Within /\ g0 = blanks (hd 0 ks) /\ starts s /\ brk x).
Definition placed (ks : list nat) (m : mode) (p : place) (l : lstate) (a : Z * Z) (g0 x s : str) (ts : list ptok) : Prop :=
  match m with
  | AtLine false => g0 = [] /\ ((p = First /\ snd a = 0%Z /\ brk x)
      \/ (p = Within /\ x = [] /\ ks = [] /\ l_par l = 0%Z /\ match ts with t :: _ => t_type (snd t) <> TIndent | [] => True end))
  | AtLine true => p = Within /\ g0 = [92; 10]%N /\ brk x
  | Inline => pend ks p g0 x s
  end.

Lemma hd_blanks : forall ks, hd [] (map blanks ks) = blanks (hd 0 ks).
Proof. destruct ks; reflexivity. Qed.
Lemma first_gap : forall ks p t j, p = First -> ~ ends_line t -> gap (map blanks ks) p t (blanks j).
Proof.
  intros ks p t j -> E. destruct (le_lt_dec (hd 0 ks) j) as [L|L].
  - replace j with (hd 0 ks + (j - hd 0 ks)) by lia. rewrite blanks_app, <- hd_blanks. apply gap_indented; [discriminate|exact E].
  - apply gap_less; [exact E|]. rewrite hd_blanks, blanks_length. exact L.
Qed.
Lemma pend_gap : forall ks p g0 x s t j, pend ks p g0 x s -> ~ ends_line t -> gap (map blanks ks) p t (g0 ++ blanks j).
Proof.
  intros ks p g0 x s t j [[-> ->]|[(-> & -> & _)|[(-> & -> & _)|(NW & -> & _)]]] E.
  - apply (gap_within _ t 0 j).
  - apply (gap_within _ t 1 j).
  - apply first_gap; auto.
  - rewrite <- hd_blanks. apply gap_indented; assumption.
Qed.
Lemma pend_line : forall ks p g0 x s t j, pend ks p g0 x s -> ~ starts s -> ends_line t -> gap (map blanks ks) p t (g0 ++ blanks j).
Proof.
  intros ks p g0 x s t j [[-> ->]|[(-> & -> & _)|[(-> & -> & _)|(NW & -> & ST & _)]]] NS E; [apply (gap_within _ t 0 j)|apply (gap_within _ t 1 j)| |contradiction].
  apply gap_empty_line. exact E.
Qed.
Lemma describes_dedents : forall ks1 ks2 p a src r b, p <> Within -> fst b = fst a -> (ks2 = [] -> snd b = 0%Z) ->
  describes gap (map blanks ks2) (match ks1 with [] => p | _ => Dedented end) a src r ->
  describes gap (map blanks (ks1 ++ ks2)) p a src (map snd (repeat (tok TDedent [] b b) (length ks1)) ++ r).
Proof.
  induction ks1 as [|k ks1 IH]; intros ks2 p a src r b NW E Z H; cbn [app map length repeat]; auto.
  apply D_dedent; auto.
  - intros X. apply Z. destruct ks2; [reflexivity|]. destruct ks1; discriminate.
  - apply IH; auto; [discriminate|]. destruct ks1; exact H.
Qed.
Lemma other_not_line : forall t, t_type t = TString \/ t_type t = TComment \/ t_type t = TOther -> ~ ends_line t.
Proof. intros t H [E|E]; destruct H as [H|[H|H]]; congruence. Qed.

Section Word.
Variable word : N -> bool.
Notation run := (run word).
Notation step := (step word).
Notation pseudo := (pseudo word).
Variable whole : str.
Hypothesis C13 : ~ In 13%N whole.

Theorem described : closed whole -> forall fuel l m s ts x ks p a g0, run whole fuel l m s = (ts, None) -> existsb fst ts = false -> l_need l = false ->
  ok m s -> whole = x ++ s -> l_ins l = map Z.of_nat ks -> nested ks -> l_pos l = after a g0 -> placed ks m p l a g0 x s ts -> tidy whole x ts ->
  describes gap (map blanks ks) p a (g0 ++ s) (map snd ts).
Proof.
  intros CW. induction fuel as [|fuel IH]; intros l m s ts x ks p a g0 R F LN OK EW EI NK EP PL TD; [discriminate|].
  assert (Next : forall ts0 l1 m1 s1, step whole l m s = More ts0 l1 m1 s1 -> exists us, ts = ts0 ++ us /\ run whole fuel l1 m1 s1 = (us, None) /\ existsb fst us = false).
  { intros ts0 l1 m1 s1 S. destruct (split_more word _ _ _ _ _ _ _ _ _ _ S R) as (us & -> & R1). rewrite existsb_app in F. apply orb_false_iff in F as [F1 F2]. eauto. }
  assert (WZ : forall q, In q UNTIDY -> occurrences q (fst (span blank_c s)) = 0).
  { intros q I. specialize (TD q I). pose proof (run_inside word whole (S fuel) l m s q) as RI. rewrite R in RI. cbn [fst] in RI. unfold rest_of in RI.
    pose proof (span_app blank_c s) as A. rewrite EW in TD. rewrite <- A in TD at 1. pose proof (occ_app q x (fst (span blank_c s) ++ snd (span blank_c s))).
    pose proof (occ_app q (fst (span blank_c s)) (snd (span blank_c s))). lia. }
  assert (WS : exists j, fst (span blank_c s) = blanks j).
  { pose proof (span_true blank_c s) as T. pose proof (span_app blank_c s) as A. exists (length (fst (span blank_c s))). apply repeat_blank; auto.
    - apply occ_one. apply (WZ [9]%N). left. reflexivity.
    - apply occ_one. apply (WZ [12]%N). right. left. reflexivity. }
  destruct m as [[|]|].
  - (* after a backslash *)
    destruct PL as (-> & -> & B). cbn [PyTokenize.step] in Next. unfold at_line in Next. cbn [negb] in Next. rewrite andb_false_r in Next.
    cbn [PyTokenize.run PyTokenize.step] in R. unfold at_line in R. cbn [negb] in R. rewrite andb_false_r in R.
    destruct s as [|s0 s1]; [discriminate|]. destruct (Next _ _ _ _ eq_refl) as (us & -> & R1 & F1). cbn [ok] in OK. destruct OK as [OK|OK]; [discriminate|].
    eapply IH; try eassumption. right. left. auto.
  - (* the start of a line *)
    destruct PL as (-> & PL). cbn [app after] in *. cbn [ok] in OK. cbn [PyTokenize.step] in Next. unfold at_line in Next. cbn [negb] in Next. rewrite andb_true_r in Next.
    cbn [PyTokenize.run PyTokenize.step] in R. unfold at_line in R. cbn [negb] in R. rewrite andb_true_r in R.
    destruct (l_par l =? 0)%Z eqn:PC.
    + destruct s as [|s0 s1].
      * rewrite finish_closed in R by exact CW. injection R as <-. rewrite map_app. cbn [map snd tok].
        destruct PL as [(-> & SA & _)|(-> & _ & -> & _)].
        -- match goal with |- context [map snd ?u ++ _] => replace u with (repeat (tok TDedent [] (fst (l_pos l), 0)%Z (fst (l_pos l), 0)%Z) (length ks)) end.
           2: { rewrite EI. clear. induction ks as [|k ks IHk]; cbn; [reflexivity|]. f_equal. exact IHk. }
           rewrite <- (app_nil_r ks) at 1. apply describes_dedents; [discriminate|cbn; congruence|reflexivity|]. apply D_end. reflexivity.
        -- rewrite EI. cbn. apply D_end. reflexivity.
      * destruct OK as [OK|OK]; [discriminate|]. remember (s0 :: s1) as s eqn:ES. clear s0 s1 ES.
        pose proof (span_app blank_c s) as SA.
        assert (SF : forall c r, snd (span blank_c s) = c :: r -> blank_c c = false) by (intros; eapply span_false; eauto).
        destruct (span blank_c s) as [ws r]. cbn [fst snd] in *. destruct WS as [j ->]. subst s.
        assert (OKr : ends_nl r) by (apply (ends_nl_app (blanks j)); [apply blanks_has|exact OK]).
        destruct r as [|c r1]; [destruct (ends_nl_nil OKr)|]. specialize (SF c r1 eq_refl).
        assert (GP : forall t, ~ ends_line t -> gap (map blanks ks) p t (blanks j)).
        { intros t E. destruct PL as [(-> & _)|(-> & _)]; [apply first_gap; auto|apply (gap_within _ t 0 j)]. }
        assert (RA : right (l_pos l) (blanks j) = after a (blanks j)) by (rewrite EP; apply right_after, blanks_has).
        destruct (existsb (N.eqb c) [35; 13; 10]%N) eqn:EC.
        -- destruct (cut_line (c :: r1)) as [line rest] eqn:CL. destruct (cut_line_spec _ _ _ CL) as [EL CL2].
           assert (LNL : exists l0, line = l0 ++ [10%N] /\ has 10 l0 = false).
           { destruct CL2 as [[X ->]|X]; [|exact X]. rewrite app_nil_r in EL. rewrite EL in OKr. destruct OKr as [b E]. rewrite E, has_app in X. cbn in X. rewrite orb_true_r in X. discriminate. }
           destruct LNL as (l0 & EL0 & HL0).
           assert (OKrest : closed rest) by (apply (ends_nl_closed line); rewrite <- EL; exact OKr).
           assert (Rest : forall us, run whole fuel (mk_l (below (l_pos l)) (l_par l) (l_ins l) (l_need l)) (AtLine false) rest = (us, None) -> existsb fst us = false -> tidy whole (x ++ blanks j ++ line) us ->
             describes gap (map blanks ks) First (fst (l_pos l) + 1, 0)%Z rest (map snd us)).
           { intros us R1 F1 TD1. eapply (IH _ (AtLine false) rest us (x ++ blanks j ++ line) ks First (fst (l_pos l) + 1, 0)%Z []); try eassumption; auto.
             - rewrite EW, EL, <- !app_assoc. reflexivity.
             - split; auto. left. repeat split; auto. exists (x ++ blanks j ++ l0), 10%N. rewrite EL0, <- !app_assoc. auto. }
           destruct (N.eqb c 35) eqn:E35.
           ++ set (text := rev (dropwhile (fun c => N.eqb c 13 || N.eqb c 10) (rev line))) in *. set (e := skipn (length text) line) in *.
              assert (ET : text ++ e = line).
              { subst text e. clear. set (q := fun c => _).
                assert (X : forall b, exists d, b = d ++ dropwhile q b) by (induction b as [|y b [d IHa]]; [exists []; reflexivity|cbn; destruct (q y); [exists (y :: d); cbn; congruence|exists []; reflexivity]]).
                destruct (X (rev line)) as [d E]. remember (dropwhile q (rev line)) as d2. rewrite <- (rev_involutive line), E, rev_app_distr, skipn_app_len. reflexivity. }
              assert (HT : has 10 text = false).
              { subst text. rewrite EL0, rev_app_distr. cbn [rev app dropwhile]. replace (N.eqb 10 13 || N.eqb 10 10) with true by reflexivity.
                assert (X : forall b, has 10 b = false -> has 10 (dropwhile (fun c => N.eqb c 13 || N.eqb c 10) b) = false).
                { clear. induction b as [|y b IHa]; intros H; auto. unfold has in *. cbn [existsb dropwhile] in *. apply orb_false_iff in H as [H1 H2]. destruct (N.eqb y 13 || N.eqb y 10); auto. cbn [existsb]. rewrite H1, H2. reflexivity. }
                assert (Y : forall b, has 10 (rev b) = has 10 b).
                { clear. intros b. unfold has. induction b as [|y b IHa]; auto. cbn [rev existsb]. rewrite existsb_app, IHa. cbn. rewrite orb_false_r. apply orb_comm. }
                rewrite Y. apply X. rewrite Y. exact HL0. }
              destruct (Next _ _ _ _ eq_refl) as (us & -> & R1 & F1). rewrite map_app. cbn [map snd app].
              rewrite EL. replace (blanks j ++ line ++ rest) with (blanks j ++ text ++ [] ++ e ++ rest) by (rewrite <- ET at 1; rewrite <- app_assoc; reflexivity).
              apply (D_token gap _ p a (blanks j) (mk_tok TComment text _ _)); cbn [t_start t_end t_text t_type]; [auto|apply GP; apply other_not_line; auto|exact RA|apply right_after; exact HT|].
              apply (D_line gap _ Within _ [] (mk_tok TNl e _ _)); cbn [t_start t_end t_text t_type]; [right; reflexivity|apply (gap_within _ _ 0 0)|reflexivity|reflexivity|].
              apply Rest; [assumption ..|]. assert (T1 := tidy_one whole x (blanks j) text e _ _ TD eq_refl).
              match type of T1 with tidy _ _ (?t :: _) => assert (T2 := tidy_mute whole _ [] [t] us T1) end. rewrite app_nil_r, ET in T2. apply T2. repeat constructor; discriminate.
           ++ destruct (Next _ _ _ _ eq_refl) as (us & -> & R1 & F1). rewrite map_app. cbn [map snd app]. rewrite EL.
              apply (D_line gap _ p a (blanks j) (mk_tok TNl line _ _)); cbn [t_start t_end t_text t_type]; [right; reflexivity| |exact RA|reflexivity|apply Rest; [assumption ..|]; eapply tidy_mute; [exact TD|repeat constructor; discriminate]].
              destruct PL as [(-> & _)|(-> & _)]; [apply gap_empty_line; right; reflexivity|apply (gap_within _ _ 0 j)].
        -- rewrite width_blanks in *. assert (TOP : top (l_ins l) = Z.of_nat (hd 0 ks)) by (rewrite EI; destruct ks; reflexivity). rewrite TOP in *.
           assert (ST : starts (c :: r1)) by (exists c, r1; auto).
           assert (BX : p = First -> brk (x ++ blanks j)).
           { intros ->. destruct PL as [(_ & _ & x0 & d & -> & D)|(PL & _)]; [|discriminate]. destruct j as [|j]; [exists x0, d; cbn; rewrite app_nil_r; auto|].
             exists ((x0 ++ [d]) ++ blanks j), 32%N. rewrite <- (Nat.add_1_r j), blanks_app, app_assoc. auto. }
           destruct (Z.of_nat (hd 0%nat ks) <? Z.of_nat j)%Z eqn:TW.
           ++ destruct (Next _ _ _ _ eq_refl) as (us & -> & R1 & F1). cbn [map snd app].
              destruct PL as [(-> & SZ & _)|(_ & _ & _ & _ & NI)]; [|exfalso; apply NI; reflexivity].
              apply D_indent; [reflexivity|apply blanks_has|]. cbn [t_text tok].
              apply (IH _ Inline (c :: r1) us (x ++ blanks j) (j :: ks) First a (blanks j) R1 F1 LN OKr).
              ** rewrite EW, <- app_assoc. reflexivity.
              ** cbn. f_equal. exact EI.
              ** cbn. split; auto. apply Z.ltb_lt in TW. lia.
              ** exact RA.
              ** right. right. right. repeat split; [discriminate|exact ST|apply BX; reflexivity].
              ** eapply tidy_mute; [exact TD|repeat constructor; discriminate].
           ++ destruct ((Z.of_nat j <? Z.of_nat (hd 0%nat ks))%Z && negb (existsb (Z.eqb (Z.of_nat j)) (l_ins l ++ [0%Z]))) eqn:IE; [discriminate|].
              assert (JK : j = hd 0 ks \/ In j ks \/ j = 0).
              { apply andb_false_iff in IE as [IE|IE]; [left; apply Z.ltb_ge in IE, TW; lia|right]. apply negb_false_iff in IE. rewrite EI in IE. apply existsb_nat. exact IE. }
              destruct (drop_exact ks j NK JK) as (ks1 & ks2 & -> & D & J2 & N2). rewrite EI, D in Next.
              destruct (Next _ _ _ _ eq_refl) as (us & -> & R1 & F1). match goal with |- describes _ _ _ _ _ (map snd (?u ++ ?v)) => replace (map snd (u ++ v)) with (map snd u ++ map snd v) by (symmetry; apply map_app) end.
              destruct PL as [(-> & SZ & _)|(-> & -> & K0 & _)].
              ** apply describes_dedents; [discriminate|rewrite RA; rewrite after_line by apply blanks_has; reflexivity| |].
                 { intros ->. cbn in J2. subst j. cbn [blanks repeat] in *. rewrite RA. exact SZ. }
                 apply (IH _ Inline (c :: r1) us (x ++ blanks j) ks2 _ a (blanks j) R1 F1 LN OKr).
                 { rewrite EW, <- app_assoc. reflexivity. }
                 { reflexivity. }
                 { exact N2. }
                 { exact RA. }
                 { right. right. right. split; [destruct ks1; discriminate|]. split; [congruence|]. split; [exact ST|apply BX; reflexivity]. }
                 { eapply tidy_mute; [exact TD|]. apply Forall_forall. intros y Y. apply repeat_spec in Y. subst y. split; discriminate. }
              ** apply app_eq_nil in K0 as [-> ->]. cbn in J2. subst j. cbn [blanks repeat app map length] in *.
                 apply (IH _ Inline (c :: r1) us [] [] Within a [] R1 F1 LN OKr EW eq_refl I); [exact RA|left; auto|exact TD].
    + destruct PL as [(-> & SZ & BX)|(_ & _ & _ & P0 & _)]; [|rewrite P0 in PC; discriminate].
      destruct s as [|s0 s1]; [discriminate|]. destruct (Next _ _ _ _ eq_refl) as (us & -> & R1 & F1). destruct OK as [OK|OK]; [discriminate|].
      apply (IH l Inline (s0 :: s1) us x ks First a []); auto. right. right. left. auto.
  - (* within a line *)
    cbn [ok] in OK. cbn [placed] in PL. cbn [PyTokenize.step] in Next.
    pose proof (span_app blank_c s) as SA. assert (SF : forall c r, snd (span blank_c s) = c :: r -> blank_c c = false) by (intros; eapply span_false; eauto).
    pose proof (span_true blank_c s) as STR.
    destruct (span blank_c s) as [ws r] eqn:SPE. cbn [fst snd] in *. destruct WS as [j ->].
    assert (OKr : ends_nl r) by (apply (ends_nl_app (blanks j)); [apply blanks_has|rewrite SA; exact OK]).
    assert (NR : r <> []) by (intros ->; destruct (ends_nl_nil OKr)).
    assert (Inl : inline word l s =
       match pseudo r with
       | FCont r => More [] (mk_l (below (l_pos l)) (l_par l) (l_ins l) (l_need l)) (AtLine true) r
       | FTok TComment text r => More [tok TComment text (right (l_pos l) (blanks j)) (right (right (l_pos l) (blanks j)) text)] (mk_l (right (right (l_pos l) (blanks j)) text) (l_par l) (l_ins l) (l_need l)) Inline r
       | FTok k text r => More [tok k text (right (l_pos l) (blanks j)) (right (right (l_pos l) (blanks j)) text)] (mk_l (right (right (l_pos l) (blanks j)) text) (l_par l + open_par text)%Z (l_ins l) (l_need l)) Inline r
       | FNewline text r => More [tok (if (0 <? l_par l)%Z then TNl else TNewline) text (right (l_pos l) (blanks j)) (right (right (l_pos l) (blanks j)) text)] (mk_l (below (l_pos l)) (l_par l) (l_ins l) (l_need l)) (AtLine false) r
       | FNone => match s with c :: r => More [error_tok [c] (l_pos l) (right (l_pos l) [c])] (mk_l (right (l_pos l) [c]) (l_par l) (l_ins l) (l_need l)) Inline r | [] => Done [] None end
       | _ => inline word l s
       end).
    { unfold inline. rewrite SPE. destruct r as [|c r]; [congruence|]. destruct (pseudo (c :: r)); reflexivity. }
    assert (RA : right (l_pos l) (blanks j) = after a (g0 ++ blanks j)) by (rewrite after_app, <- EP; apply right_after, blanks_has).
    assert (Arefl : alike r r).
    { destruct (quote_split r) as [X|(P & q & u & -> & X & Y)]; [exists r, [], []; rewrite app_nil_r; repeat split; auto; left; auto|apply alike_quote; assumption]. }
    (* a token, and the rest of the line *)
    assert (Token : forall k text e n r1 par us, k = TString \/ k = TComment \/ k = TOther -> r = text ++ r1 -> ends_nl r1 -> e = after (right (l_pos l) (blanks j)) text ->
      run whole fuel (mk_l e par (l_ins l) n) Inline r1 = (us, None) -> existsb fst us = false -> n = false -> tidy whole (x ++ blanks j ++ text) us ->
      describes gap (map blanks ks) p a (g0 ++ s) (mk_tok k text (right (l_pos l) (blanks j)) e :: map snd us)).
    { intros k text e n r1 par us K ER O1 EE R1 F1 -> TD1. rewrite <- SA, ER, app_assoc.
      apply (D_token gap _ p a (g0 ++ blanks j) (mk_tok k text _ e)); cbn [t_start t_end t_text t_type]; [auto|eapply pend_gap; [exact PL|apply other_not_line; exact K]|exact RA|exact EE|].
      apply (IH _ Inline r1 us (x ++ blanks j ++ text) ks Within e [] R1 F1 eq_refl O1).
      - rewrite EW, <- SA, ER, <- !app_assoc. reflexivity.
      - exact EI.
      - exact NK.
      - reflexivity.
      - left. auto.
      - exact TD1. }
    assert (TT : forall t us, tidy whole x (t :: us) -> tidy whole (x ++ blanks j ++ t_text (snd t)) us).
    { intros t us T. rewrite <- (app_nil_r (t_text (snd t))). eapply tidy_one; [exact T|reflexivity]. }
    destruct (slash r) as [[e r1]|] eqn:SL.
    + pose proof (slash_local _ _ Arefl) as SS. rewrite SL in SS. destruct SS as (r1' & EE & ER & _ & _).
      destruct EE as [->| ->].
      2: { exfalso. apply C13. rewrite EW, <- SA, ER. apply in_or_app. right. apply in_or_app. right. right. left. reflexivity. }
      assert (PS : pseudo r = FCont r1) by (rewrite ER; reflexivity). rewrite PS in Inl.
      destruct (Next _ _ _ _ Inl) as (us & -> & R1 & F1). cbn [map app].
      assert (NC : forall x0 d, d = 32%N \/ d = 10%N -> whole = (x0 ++ [d]) ++ [92; 10]%N ++ r1 -> (forall q, occurrences q x <= occurrences q (x0 ++ [d])) -> False).
      { intros x0 d D EW0 OX. assert (I : In [d; 92; 10]%N UNTIDY) by (destruct D as [->| ->]; cbn; auto). specialize (TD _ I). specialize (OX [d; 92; 10]%N).
        pose proof (occ_across [d; 92; 10]%N x0 [d] [92; 10]%N r1 eq_refl) as OA. rewrite <- EW0 in OA.
        pose proof (run_inside word whole fuel (mk_l (below (l_pos l)) (l_par l) (l_ins l) (l_need l)) (AtLine true) r1 [d; 92; 10]%N) as RI. rewrite R1 in RI. cbn [fst app] in *.
        pose proof (rest_le [d; 92; 10]%N r1). assert (X : [d] <> []) by discriminate. assert (Y : [92; 10]%N <> []) by discriminate. specialize (OA X Y). lia. }
      assert (J0 : j = 0 /\ p = Within /\ g0 = []).
      { destruct j as [|j].
        - cbn [blanks repeat app] in SA. subst s. split; auto.
          assert (NB : ~ brk x). { intros (x0 & d & -> & D). rewrite ER in EW. apply (NC x0 d); auto. }
          destruct PL as [[-> ->]|[(_ & _ & B)|[(_ & _ & B)|(_ & _ & _ & B)]]]; auto; contradiction.
        - exfalso. rewrite <- SA, ER in EW. replace (S j) with (j + 1) in EW by lia. rewrite blanks_app in EW.
          destruct (NC (x ++ blanks j) 32%N); auto; [rewrite EW, <- !app_assoc; reflexivity|]. rewrite <- app_assoc. intros q. apply occ_l. }
      destruct J0 as (-> & -> & ->). cbn [blanks repeat app] in *. subst s.
      replace r with ([92; 10]%N ++ r1) by (rewrite ER; reflexivity).
      apply (IH _ (AtLine true) r1 us (x ++ [92; 10]%N) ks Within a [92; 10]%N R1 F1 LN).
      * apply (ends_nl_closed [92; 10]%N). rewrite ER in OKr. exact OKr.
      * rewrite EW, ER, <- app_assoc. reflexivity.
      * exact EI.
      * exact NK.
      * cbn [l_pos]. rewrite EP. reflexivity.
      * repeat split; auto. exists (x ++ [92%N]), 10%N. rewrite <- app_assoc. auto.
      * apply (tidy_mute whole x _ []); [exact TD|constructor].
    + destruct (startswith [35%N] r) eqn:S35.
      * destruct (pseudo_comment word r SL S35) as (y & r1 & [NX UX] & ER & PS). specialize (PS r1 eq_refl). rewrite <- ER in PS. rewrite PS in Inl.
        destruct (Next _ _ _ _ Inl) as (us & -> & R1 & F1). cbn [map app snd tok].
        eapply Token; [auto|exact ER|apply (ends_nl_app y); [exact UX|rewrite <- ER; exact OKr]|apply right_after; exact UX|exact R1|exact F1|exact LN|exact (TT _ _ TD)].
      * destruct (opening r) as [[[pr q] y]|] eqn:OP.
        -- destruct (opening_spec _ _ _ _ OP) as (ER & NP & QQ & MP).
           destruct (string_end q y) as [[v z]|] eqn:SE.
           2: { rewrite <- SA in R. pose proof (inline_no_string word whole (S fuel) l (blanks j) r pr q y ts LN STR OP SE R). congruence. }
           destruct (string_end_app q QQ _ _ _ SE) as (EY & (x0 & xc & EX & XC) & _).
           destruct (inline_string word l (blanks j) r pr q y v z LN STR OP SE) as (e & EE & Q). rewrite SA in Q.
           destruct (Next _ _ _ _ Q) as (us & -> & R1 & F1). cbn [map app snd tok].
           eapply Token; [auto| | |exact EE|exact R1|exact F1|reflexivity|exact (TT _ _ TD)].
           ++ rewrite ER, EY, <- app_assoc. reflexivity.
           ++ apply (ends_nl_last (pr ++ q :: x0) xc); [exact XC|]. rewrite ER, EY, EX in OKr. rewrite <- !app_assoc. cbn [app]. rewrite <- !app_assoc in OKr. exact OKr.
        -- pose proof (pseudo_plain word r r SL S35 OP Arefl) as PP.
           destruct (pseudo r) as [?|k y r1|y r1|? ? ?|? ? ? ?|] eqn:PR; cbn [plain_found] in PP; try contradiction.
           ++ destruct PP as (r1' & -> & [NX UX] & ER & _). destruct (Next _ _ _ _ Inl) as (us & -> & R1 & F1). cbn [map app snd tok].
              eapply Token; [auto|exact ER|apply (ends_nl_app y); [exact UX|rewrite <- ER; exact OKr]|apply right_after; exact UX|exact R1|exact F1|exact LN|exact (TT _ _ TD)].
           ++ destruct PP as (r1' & EY & ER & _). destruct EY as [->| ->].
              2: { exfalso. apply C13. rewrite EW, <- SA, ER. apply in_or_app. right. apply in_or_app. right. left. reflexivity. }
              destruct (Next _ _ _ _ Inl) as (us & -> & R1 & F1). cbn [map app snd tok]. rewrite <- SA, ER, app_assoc.
              apply (D_line gap _ p a (g0 ++ blanks j) (mk_tok (if (0 <? l_par l)%Z then TNl else TNewline) [10%N] _ _)); cbn [t_start t_end t_text t_type].
              ** unfold ends_line. cbn. destruct (0 <? l_par l)%Z; auto.
              ** eapply pend_line; [exact PL| |unfold ends_line; cbn; destruct (0 <? l_par l)%Z; auto].
                 intros (c & r2 & E & B & X). rewrite <- SA, ER in E. destruct j; cbn in E; injection E as <- _; discriminate.
              ** exact RA.
              ** reflexivity.
              ** apply (IH _ (AtLine false) r1 us (x ++ blanks j ++ [10%N]) ks First (below (l_pos l)) [] R1 F1 LN).
                 { apply (ends_nl_closed [10%N]). rewrite ER in OKr. exact OKr. }
                 { rewrite EW, <- SA, ER, <- !app_assoc. reflexivity. }
                 { exact EI. }
                 { exact NK. }
                 { reflexivity. }
                 { split; auto. left. repeat split. exists (x ++ blanks j), 10%N. rewrite <- app_assoc. auto. }
                 { apply (TT _ _ TD). }
           ++ exfalso. cbn [PyTokenize.run PyTokenize.step] in R. rewrite Inl in R. destruct s as [|c s1]; [destruct (blanks j); [cbn in SA; congruence|discriminate]|].
              destruct (run whole fuel _ Inline s1) as [us e]. injection R as <- _. discriminate.
Qed.
End Word.
Theorem tokenize_file : forall word src ts, tokenize word src = (ts, None) -> existsb fst ts = false -> closed src -> clean src ts ->
  match ts with t :: _ => t_type (snd t) <> TIndent | [] => True end -> tokens_of_file src (map snd ts).
Proof.
  intros word src ts T F C [C13 CL] NI. apply (described word src C13 C _ lstate0 (AtLine false) src ts [] [] Within (1, 0)%Z []  T F eq_refl C eq_refl eq_refl I eq_refl).
  - split; auto. right. auto.
  - exact CL.
Qed.
