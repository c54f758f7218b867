(** A file in which strings are replaced has the tokens of the old file, with the new strings. *)
From Verif Require Import PyStr Lib PyTokens PyTokenize SpecSource ProofSource ProofLex ProofLex2 ProofTokenize ProofTokenize2.
Local Open Scope str_scope.
Local Open Scope list_scope.

Definition kt (t : pytok) : tktype * str := (t_type t, t_text t).
(** The same token, or another string with the same prefix and quote character that ends where its text ends *)
Definition replaced (t t' : pytok) : Prop :=
  t_type t' = t_type t
  /\ (t_text t' = t_text t
      \/ (t_type t = TString /\ exists p q y y', noq p /\ quote_c q = true /\ t_text t = p ++ q :: y /\ t_text t' = p ++ q :: y'
          /\ (exists y0 c, y' = y0 ++ [c] /\ c <> 10%N) /\ forall b, string_end q (y' ++ b) = Some (y', b))).
Definition closed (w : str) : Prop := w = [] \/ ends_nl w.
Definition ok (m : mode) (s : str) : Prop := match m with AtLine _ => closed s | Inline => ends_nl s end.

Lemma noq_unique : forall p q y p2 q2 y2, noq p -> noq p2 -> quote_c q = true -> quote_c q2 = true ->
  p ++ q :: y = p2 ++ q2 :: y2 -> p = p2 /\ q = q2 /\ y = y2.
Proof.
  induction p as [|c p IH]; intros q y [|d p2] q2 y2 N N2 Q Q2 E; cbn [app] in E.
  - injection E as -> ->. auto.
  - injection E as -> _. inversion N2; subst. congruence.
  - injection E as -> _. inversion N; subst. congruence.
  - injection E as -> E. inversion N; inversion N2; subst. destruct (IH q y p2 q2 y2) as (-> & -> & ->); auto.
Qed.
Lemma right_after : forall p x, has 10 x = false -> right p x = after p x.
Proof. intros p x H. rewrite after_line by exact H. reflexivity. Qed.
Lemma respelled_gap : forall b ts s ts' s', respelled b ts s ts' s' -> s <> [] -> forall a g, b = after a g -> respelled a ts (g ++ s) ts' (g ++ s').
Proof.
  induction 1 as [b|b t r t' r' E|b t r s t' r' s' E H IH|b g2 t r s t' r' s' E S H IH|b g2 t r s t' r' s' E S H IH]; intros NE a g EB; try congruence.
  - apply R_mark; auto.
  - rewrite !(app_assoc g). apply R_line; auto. rewrite after_app, <- EB. exact S.
  - rewrite !(app_assoc g). apply R_token; auto. rewrite after_app, <- EB. exact S.
Qed.
Lemma R_token' : forall a g t r s t' r' s' x x', t_type t = TString \/ t_type t = TComment \/ t_type t = TOther -> t_start t = after a g -> t_text t = x -> t_text t' = x' ->
  respelled (t_end t) r s r' s' -> respelled a (t :: r) (g ++ x ++ s) (t' :: r') (g ++ x' ++ s').
Proof. intros. subst x x'. apply R_token; assumption. Qed.
Lemma R_line' : forall a g t r s t' r' s' x x', ends_line t -> t_start t = after a g -> t_text t = x -> t_text t' = x' ->
  respelled (fst (t_start t) + 1, 0)%Z r s r' s' -> respelled a (t :: r) (g ++ x ++ s) (t' :: r') (g ++ x' ++ s').
Proof. intros. subst x x'. apply R_line; assumption. Qed.
Lemma respelled_marks : forall ms ms' a ts s ts' s', Forall2 (fun t t' => t_type t = TIndent \/ t_type t = TDedent) ms ms' -> respelled a ts s ts' s' ->
  respelled a (ms ++ ts) s (ms' ++ ts') s'.
Proof. induction 1 as [|t t' ms ms' H F IH]; intros R; cbn [app]; auto. apply R_mark; auto. Qed.
Lemma replaced_kt : forall t t', t_type t <> TString -> replaced t t' -> kt t' = kt t.
Proof. intros t t' N [A [B|[B _]]]; [unfold kt; congruence|congruence]. Qed.
Lemma replaced_kts : forall ts ts', Forall (fun t => t_type t <> TString) ts -> Forall2 replaced ts ts' -> map kt ts' = map kt ts.
Proof. intros ts ts' F H. induction H as [|t t' ts ts' R H IH]; auto. inversion F; subst. cbn. rewrite IH, (replaced_kt t t'); auto. Qed.
Lemma marks_replaced : forall ms ms', Forall (fun t => t_type t = TIndent \/ t_type t = TDedent) ms -> Forall2 replaced ms ms' ->
  Forall2 (fun t t' => t_type t = TIndent \/ t_type t = TDedent) ms ms'.
Proof. intros ms ms' F H. induction H; constructor; inversion F; auto. Qed.
Lemma last_line_nl : forall w, closed w -> last_line w = [] \/ endswith [10%N] (last_line w) = true.
Proof.
  induction w as [|c w IH]; intros H; [left; reflexivity|]. cbn [last_line]. destruct (cut_line (c :: w)) as [line rest] eqn:C.
  apply cut_line_spec in C as [E C]. destruct rest as [|d rest].
  - right. rewrite app_nil_r in E. subst line. destruct H as [H|[a H]]; [discriminate|]. rewrite H. apply endswith_10_true.
  - apply IH. destruct H as [H|[a H]]; [discriminate|]. destruct a as [|e a]; cbn in H; [injection H as _ ->; left; reflexivity|]. injection H as _ ->. right. exists a. reflexivity.
Qed.
Lemma finish_closed : forall w l, closed w -> finish w true l =
  Done (map (fun _ => tok TDedent [] (fst (l_pos l), 0)%Z (fst (l_pos l), 0)%Z) (l_ins l) ++ [tok TEnd [] (fst (l_pos l), 0)%Z (fst (l_pos l), 0)%Z]) None.
Proof.
  intros w l H. unfold finish. destruct (last_line_nl w H) as [-> | E]; [reflexivity|]. rewrite E. cbn [orb negb]. rewrite !andb_false_r. reflexivity.
Qed.

Section Word.
Variable word : N -> bool.
Notation run := (run word).
Notation step := (step word).
Notation pseudo := (pseudo word).

Definition reread (w' : str) (fuel : nat) (l' : lstate) (m : mode) (s' : str) (ts' : list pytok) : Prop :=
  exists ts2, run w' fuel l' m s' = (ts2, None) /\ existsb fst ts2 = false /\ map kt (map snd ts2) = map kt ts'.
Lemma reread_more : forall w' fuel l' m s' ts0 l1 m1 s1 a' b', step w' l' m s' = More ts0 l1 m1 s1 -> existsb fst ts0 = false ->
  map kt (map snd ts0) = map kt a' -> reread w' fuel l1 m1 s1 b' -> reread w' (S fuel) l' m s' (a' ++ b').
Proof.
  intros w' fuel l' m s' ts0 l1 m1 s1 a' b' S F K (us & R & F2 & K2). exists (ts0 ++ us). cbn [PyTokenize.run]. rewrite S, R. split; auto.
  split; [rewrite existsb_app; apply orb_false_iff; split; assumption|]. rewrite !map_app. f_equal; assumption.
Qed.
Lemma blank_10 : blank_c 10 = false. Proof. reflexivity. Qed.
Lemma ends_nl_cat : forall x s, ends_nl s -> ends_nl (x ++ s).
Proof. intros x s [a ->]. exists (x ++ a). apply app_assoc. Qed.
Lemma closed_nl : forall x s, x = [10]%N \/ x = [13; 10]%N -> closed s -> ends_nl (x ++ s).
Proof. intros x s H [->|H2]; [|apply ends_nl_cat; exact H2]. rewrite app_nil_r. destruct H as [->| ->]; [exists []|exists [13%N]]; reflexivity. Qed.
Lemma ends_nl_closed : forall x s, ends_nl (x ++ s) -> closed s.
Proof.
  intros x s [a E]. destruct s as [|c s _] using rev_ind; [left; reflexivity|]. right. rewrite app_assoc in E. apply app_inj_tail in E as [_ ->]. exists s. reflexivity.
Qed.
Lemma alike_ne : forall s s', alike s s' -> s <> [] -> s' <> [].
Proof. intros s s' A N. apply alike_hd in A. destruct s, s'; cbn in A; congruence. Qed.
Lemma split_more : forall (w : str) fuel l m s ts0 l1 m1 s1 ts, step w l m s = More ts0 l1 m1 s1 -> run w (S fuel) l m s = (ts, None) ->
  exists us, ts = ts0 ++ us /\ run w fuel l1 m1 s1 = (us, None).
Proof. intros w fuel l m s ts0 l1 m1 s1 ts S R. cbn [PyTokenize.run] in R. rewrite S in R. destruct (run w fuel l1 m1 s1) as [us e]. injection R as <- ->. eauto. Qed.

Theorem simulation : forall w, closed w -> forall fuel l m s ts ts', run w fuel l m s = (ts, None) -> existsb fst ts = false -> l_need l = false ->
  ok m s -> Forall2 replaced (map snd ts) ts' ->
  exists s', respelled (l_pos l) (map snd ts) s ts' s' /\ alike s s' /\ ok m s'
    /\ forall w' p', closed w' -> reread w' fuel (mk_l p' (l_par l) (l_ins l) false) m s' ts'.
Proof.
  intros w CW. induction fuel as [|fuel IH]; intros l m s ts ts' R F LN OK RP; [discriminate|].
  (* one step and the rest *)
  assert (Next : forall ts0 l1 m1 s1, step w l m s = More ts0 l1 m1 s1 -> l_need l1 = false -> ok m1 s1 ->
    exists us a' b', ts = ts0 ++ us /\ ts' = a' ++ b' /\ existsb fst ts0 = false /\ Forall2 replaced (map snd ts0) a' /\
      exists s', respelled (l_pos l1) (map snd us) s1 b' s' /\ alike s1 s' /\ ok m1 s' /\
        forall w' p', closed w' -> reread w' fuel (mk_l p' (l_par l1) (l_ins l1) false) m1 s' b').
  { intros ts0 l1 m1 s1 S LN1 OK1. destruct (split_more _ _ _ _ _ _ _ _ _ _ S R) as (us & -> & R1). rewrite existsb_app in F. apply orb_false_iff in F as [F1 F2].
    rewrite map_app in RP. apply Forall2_app_inv_l in RP as (a' & b' & RA & RB & ->). exists us, a', b'. do 2 (split; [reflexivity|]). do 2 (split; [assumption|]).
    exact (IH _ _ _ _ _ R1 F2 LN1 OK1 RB). }
  destruct m as [con|].
  - (* the start of a line *)
    cbn [ok] in OK. cbn [PyTokenize.step] in Next. unfold at_line in Next. cbn [PyTokenize.run PyTokenize.step] in R. unfold at_line in R.
    destruct ((l_par l =? 0)%Z && negb con) eqn:PC.
    + destruct s as [|s0 s1].
      * clear Next. rewrite finish_closed in R by exact CW. injection R as <-. exists []. split; [|split; [|split]].
        -- rewrite map_app in *. apply Forall2_app_inv_l in RP as (a' & b' & RA & RB & ->). apply respelled_marks.
           ++ apply marks_replaced; [|exact RA]. rewrite map_map. apply Forall_map, Forall_forall. cbn. auto.
           ++ inversion RB as [|? ? ? ? X Y]; subst. inversion Y; subst. apply R_end. reflexivity.
        -- apply alike_nil.
        -- left. reflexivity.
        -- intros w' p' CW'. eexists. cbn [PyTokenize.run PyTokenize.step]. unfold at_line. cbn [l_par]. rewrite PC, finish_closed by exact CW'. split; [reflexivity|].
           cbn [l_pos l_ins]. split.
           ++ rewrite existsb_app. cbn. rewrite orb_false_r. clear. induction (l_ins l); auto.
           ++ rewrite (replaced_kts _ _) with (2 := RP).
              ** rewrite !map_app, !map_map. reflexivity.
              ** rewrite map_app, map_map. apply Forall_app. split; [|repeat constructor; discriminate]. apply Forall_map, Forall_forall. cbn. discriminate.
      * destruct OK as [OK|OK]; [discriminate|]. remember (s0 :: s1) as s eqn:ES.
        assert (NS : s <> []) by congruence. clear s0 s1 ES.
        pose proof (span_app blank_c s) as SA. pose proof (span_has blank_c eq_refl s) as SH.
        assert (SP : span blank_c (fst (span blank_c s) ++ snd (span blank_c s)) = span blank_c s) by (rewrite SA; reflexivity).
        destruct (span blank_c s) as [ws r] eqn:SPE. cbn [fst snd] in *.
        subst s. assert (OKr : ends_nl r) by (apply (ends_nl_app ws); [exact SH|exact OK]).
        destruct r as [|c r1]; [destruct (ends_nl_nil OKr)|].
        (* what the second file has at this place *)
        assert (SP2 : forall r', alike (c :: r1) r' -> span blank_c (ws ++ r') = (ws, r')).
        { intros r' A. apply (span_hd blank_c (c :: r1)); [apply alike_hd; exact A|exact SP]. }
        destruct (existsb (N.eqb c) [35; 13; 10]%N) eqn:EC.
        -- destruct (cut_line (c :: r1)) as [line rest] eqn:CL. destruct (cut_line_spec _ _ _ CL) as [EL CL2].
           assert (LNL : exists l0, line = l0 ++ [10%N] /\ has 10 l0 = false).
           { destruct CL2 as [[X ->]|X]; [|exact X]. rewrite app_nil_r in EL. rewrite EL in OKr. destruct OKr as [a E]. rewrite E, has_app in X. cbn in X. rewrite orb_true_r in X. discriminate. }
           destruct LNL as (l0 & EL0 & HL0).
           assert (OKrest : closed rest) by (apply (ends_nl_closed line); rewrite <- EL; exact OKr).
           assert (CL' : forall rest', cut_line (line ++ rest') = (line, rest')) by (intros; rewrite EL0; apply cut_line_nl; exact HL0).
           assert (HD : exists line1, line = c :: line1).
           { destruct line as [|c' line1]; [destruct l0; discriminate|]. cbn in EL. injection EL as <- _. eauto. }
           destruct HD as [line1 HD].
           destruct (N.eqb c 35) eqn:E35.
           ++ set (text := rev (dropwhile (fun c => N.eqb c 13 || N.eqb c 10) (rev line))) in *. set (e := skipn (length text) line) in *.
              assert (ET : text ++ e = line).
              { subst text e. clear. set (p := fun c => _).
                assert (X : forall a, exists b, a = b ++ dropwhile p a) by (induction a as [|x a [b IHa]]; [exists []; reflexivity|cbn; destruct (p x); [exists (x :: b); cbn; congruence|exists []; reflexivity]]).
                destruct (X (rev line)) as [b E]. remember (dropwhile p (rev line)) as d. rewrite <- (rev_involutive line), E, rev_app_distr, skipn_app_len. reflexivity. }
              assert (HT : has 10 text = false).
              { subst text. rewrite EL0, rev_app_distr. cbn [rev app dropwhile]. replace (N.eqb 10 13 || N.eqb 10 10) with true by reflexivity.
                assert (X : forall a, has 10 a = false -> has 10 (dropwhile (fun c => N.eqb c 13 || N.eqb c 10) a) = false).
                { clear. induction a as [|x a IHa]; intros H; auto. unfold has in *. cbn [existsb dropwhile] in *. apply orb_false_iff in H as [H1 H2]. destruct (N.eqb x 13 || N.eqb x 10); auto. cbn [existsb]. rewrite H1, H2. reflexivity. }
                assert (Y : forall a, has 10 (rev a) = has 10 a).
                { clear. intros a. unfold has. induction a as [|x a IHa]; auto. cbn [rev existsb]. rewrite existsb_app, IHa. cbn. rewrite orb_false_r. apply orb_comm. }
                rewrite Y. apply X. rewrite Y. exact HL0. }
              destruct (Next _ _ _ _ eq_refl LN OKrest) as (us & a' & b' & -> & -> & F0 & RA & rest' & RS & AL & OK' & RR). cbn [map snd] in RA.
              pose proof (fun h => replaced_kts _ _ h RA) as K. specialize (K ltac:(repeat constructor; discriminate)).
              inversion RA as [|t1 t1' ? a1 X1 RA1]; subst a' t1. inversion RA1 as [|t2 t2' ? a2 X2 RA2]; subst a1 t2. inversion RA2; subst a2. clear RA RA1 RA2.
              pose proof K as KK. cbn [map kt t_text t_type] in KK. injection KK as K1 K2 K3 K4.
              exists (ws ++ line ++ rest'). split; [|split; [|split]].
              ** rewrite EL. assert (LE : forall z, ws ++ line ++ z = ws ++ text ++ [] ++ e ++ z) by (intros; rewrite <- ET at 1; rewrite <- app_assoc; reflexivity). rewrite !LE.
                 cbn [map snd].
                 eapply R_token'; [right; left; reflexivity|cbn; apply right_after; exact SH|reflexivity|exact K2|].
                 eapply R_line'; [right; reflexivity|reflexivity|reflexivity|exact K4|]. exact RS.
              ** rewrite EL. apply alike_app, alike_app, AL.
              ** right. apply ends_nl_cat. rewrite EL0, <- app_assoc. apply ends_nl_cat, (closed_nl [10%N]); auto.
              ** intros w' p' CW'. change (t1' :: t2' :: b') with ([t1'; t2'] ++ b'). eapply reread_more; [| | |apply (RR w' (below p') CW')].
 {
                 cbn [PyTokenize.step]. unfold at_line. cbn [l_par l_ins l_need l_pos]. rewrite PC. rewrite (SP2 (line ++ rest')) by (rewrite EL; apply alike_app, AL).
                 rewrite CL'. rewrite HD. cbn [app]. destruct (ws ++ c :: line1 ++ rest') eqn:E; [destruct ws; discriminate|]. rewrite EC, E35. rewrite <- HD. fold text. fold e. reflexivity. } { reflexivity. } { symmetry. exact K. }
           ++ destruct (Next _ _ _ _ eq_refl LN OKrest) as (us & a' & b' & -> & -> & F0 & RA & rest' & RS & AL & OK' & RR). cbn [map snd] in RA.
              pose proof (fun h => replaced_kts _ _ h RA) as K. specialize (K ltac:(repeat constructor; discriminate)).
              inversion RA as [|t1 t1' ? a1 X1 RA1]; subst a' t1. inversion RA1; subst a1. clear RA RA1.
              pose proof K as KK. cbn [map kt t_text t_type] in KK. injection KK as K1 K2.
              exists (ws ++ line ++ rest'). split; [|split; [|split]].
              ** rewrite EL. cbn [map snd].
                 eapply R_line'; [right; reflexivity|cbn; apply right_after; exact SH|reflexivity|exact K2|]. exact RS.
              ** rewrite EL. apply alike_app, alike_app, AL.
              ** right. apply ends_nl_cat. rewrite EL0, <- app_assoc. apply ends_nl_cat, (closed_nl [10%N]); auto.
              ** intros w' p' CW'. change (t1' :: b') with ([t1'] ++ b'). eapply reread_more; [| | |apply (RR w' (below p') CW')].
 {
                 cbn [PyTokenize.step]. unfold at_line. cbn [l_par l_ins l_need l_pos]. rewrite PC. rewrite (SP2 (line ++ rest')) by (rewrite EL; apply alike_app, AL).
                 rewrite CL'. rewrite HD. cbn [app]. destruct (ws ++ c :: line1 ++ rest') eqn:E; [destruct ws; discriminate|]. rewrite EC, E35. reflexivity. } { reflexivity. } { symmetry. exact K. }
        -- destruct (top (l_ins l) <? width ws)%Z eqn:TW.
           ++ destruct (Next _ _ _ _ eq_refl LN OKr) as (us & a' & b' & -> & -> & F0 & RA & r' & RS & AL & OK' & RR). cbn [map snd] in RA.
              pose proof (fun h => replaced_kts _ _ h RA) as K. specialize (K ltac:(repeat constructor; discriminate)).
              inversion RA as [|t1 t1' ? a1 X1 RA1]; subst a' t1. inversion RA1; subst a1. clear RA RA1.
              exists (ws ++ r'). split; [|split; [|split]].
              ** cbn [map snd app]. apply R_mark; [left; reflexivity|]. eapply respelled_gap; [exact RS|discriminate|]. cbn. apply right_after. exact SH.
              ** apply alike_app, AL.
              ** right. apply ends_nl_cat. exact OK'.
              ** intros w' p' CW'. change (t1' :: b') with ([t1'] ++ b'). eapply reread_more; [| | |apply (RR w' (right p' ws) CW')].
 {
                 cbn [PyTokenize.step]. unfold at_line. cbn [l_par l_ins l_need l_pos]. rewrite PC. rewrite (SP2 r' AL).
                 pose proof (alike_hd _ _ AL) as HD. destruct r' as [|c' r']; [discriminate|]. injection HD as <-. destruct (ws ++ c :: r') eqn:E; [destruct ws; discriminate|].
                 rewrite EC, TW. reflexivity. } { reflexivity. } { symmetry. exact K. }
           ++ destruct ((width ws <? top (l_ins l))%Z && negb (existsb (Z.eqb (width ws)) (l_ins l ++ [0%Z]))) eqn:IE; [discriminate|].
              destruct (drop_ins (width ws) (l_ins l)) as [k ins] eqn:DI.
              destruct (Next _ _ _ _ eq_refl LN OKr) as (us & a' & b' & -> & -> & F0 & RA & r' & RS & AL & OK' & RR). cbn [map snd] in RA.
              assert (K : map kt a' = map kt (map snd (repeat (tok TDedent [] (right (l_pos l) ws) (right (l_pos l) ws)) k))).
              { apply replaced_kts; [|exact RA]. clear. induction k; constructor; auto. discriminate. }
              exists (ws ++ r'). split; [|split; [|split]].
              ** rewrite map_app. apply respelled_marks.
                 { apply marks_replaced; [|exact RA]. clear. induction k; constructor; auto. }
                 eapply respelled_gap; [exact RS|discriminate|]. cbn. apply right_after. exact SH.
              ** apply alike_app, AL.
              ** right. apply ends_nl_cat. exact OK'.
              ** intros w' p' CW'. eapply reread_more; [| | |apply (RR w' (right p' ws) CW')].
                 { cbn [PyTokenize.step]. unfold at_line. cbn [l_par l_ins l_need l_pos]. rewrite PC. rewrite (SP2 r' AL).
                 pose proof (alike_hd _ _ AL) as HD. destruct r' as [|c' r']; [discriminate|]. injection HD as <-. destruct (ws ++ c :: r') eqn:E; [destruct ws; discriminate|].
                 rewrite EC, TW, IE, DI, ?LN. reflexivity. }
                 { clear. induction k; auto. }
                 { rewrite K. clear. induction k as [|k IHk]; [reflexivity|]. cbn [repeat map]. f_equal. exact IHk. }
    + destruct s as [|s0 s1]; [discriminate|]. destruct OK as [OK|OK]; [discriminate|].
      destruct (Next _ _ _ _ eq_refl LN OK) as (us & a' & b' & -> & -> & F0 & RA & s' & RS & AL & OK' & RR). cbn [map snd] in RA. inversion RA; subst.
      exists s'. split; [exact RS|]. split; [exact AL|]. split; [right; exact OK'|]. intros w' p' CW'. apply reread_more with (a' := []) (ts0 := []) (l1 := mk_l p' (l_par l) (l_ins l) false) (m1 := Inline) (s1 := s'); auto.
      cbn [PyTokenize.step]. unfold at_line. cbn [l_par]. rewrite PC. pose proof (alike_ne _ _ AL) as NE. destruct s'; [destruct NE; [discriminate|reflexivity]|reflexivity].
  - (* within a line *)
    cbn [ok] in OK. cbn [PyTokenize.step] in Next. 
    pose proof (span_app blank_c s) as SA. pose proof (span_has blank_c eq_refl s) as SH. pose proof (span_true blank_c s) as ST.
    assert (SP : span blank_c (fst (span blank_c s) ++ snd (span blank_c s)) = span blank_c s) by (rewrite SA; reflexivity).
    destruct (span blank_c s) as [ws r] eqn:SPE. cbn [fst snd] in *. rewrite <- SA in *. clear SA s SPE.
    assert (OKr : ends_nl r) by (apply (ends_nl_app ws); [exact SH|exact OK]).
    assert (SP2 : forall r', alike r r' -> span blank_c (ws ++ r') = (ws, r')).
    { intros r' A. apply (span_hd blank_c r); [apply alike_hd; exact A|exact SP]. }
    assert (NR : r <> []) by (intros ->; destruct (ends_nl_nil OKr)).
    assert (Inl : forall l' r', alike r r' -> inline word l' (ws ++ r') =
       match pseudo r' with
       | FCont r => More [] (mk_l (below (l_pos l')) (l_par l') (l_ins l') (l_need l')) (AtLine true) r
       | FTok TComment text r => More [tok TComment text (right (l_pos l') ws) (right (right (l_pos l') ws) text)] (mk_l (right (right (l_pos l') ws) text) (l_par l') (l_ins l') (l_need l')) Inline r
       | FTok k text r => More [tok k text (right (l_pos l') ws) (right (right (l_pos l') ws) text)] (mk_l (right (right (l_pos l') ws) text) (l_par l' + open_par text)%Z (l_ins l') (l_need l')) Inline r
       | FNewline text r => More [tok (if (0 <? l_par l')%Z then TNl else TNewline) text (right (l_pos l') ws) (right (right (l_pos l') ws) text)] (mk_l (below (l_pos l')) (l_par l') (l_ins l') (l_need l')) (AtLine false) r
       | FNone => match ws ++ r' with c :: r => More [error_tok [c] (l_pos l') (right (l_pos l') [c])] (mk_l (right (l_pos l') [c]) (l_par l') (l_ins l') (l_need l')) Inline r | [] => Done [] None end
       | _ => inline word l' (ws ++ r')
       end).
    { intros l' r' A. unfold inline. rewrite (SP2 r' A). pose proof (alike_ne _ _ A NR). destruct r' as [|c' r']; [congruence|]. destruct (pseudo (c' :: r')); reflexivity. }
    assert (Arefl : alike r r).
    { destruct (quote_split r) as [X|(P & q & u & -> & X & Y)]; [exists r, [], []; rewrite app_nil_r; repeat split; auto; left; auto|apply alike_quote; assumption]. }
    destruct (slash r) as [[e r1]|] eqn:SL.
    + (* a continued line *)
      pose proof (slash_local _ _ Arefl) as SS. rewrite SL in SS. destruct SS as (r1' & EE & ER & ER' & _).
      assert (PS : forall x, pseudo (92%N :: e ++ x) = FCont x) by (intros; unfold PyTokenize.pseudo; cbn [N.eqb]; replace (N.eqb 92 92) with true by reflexivity; destruct EE as [->| ->]; reflexivity).
      assert (OK1 : closed r1) by (apply (ends_nl_closed (92%N :: e)); cbn [app]; rewrite <- ER; exact OKr).
      assert (Q := Inl l r Arefl). rewrite ER in Q at 2. rewrite PS in Q.
      assert (NE1 : r1 <> []).
      { intros ->. cbn [PyTokenize.run PyTokenize.step] in R. rewrite Q in R. destruct fuel as [|fuel]; [discriminate|]. cbn [PyTokenize.run PyTokenize.step] in R. unfold at_line in R.
        cbn [negb] in R. rewrite andb_false_r in R. discriminate. }
      destruct (Next _ _ _ _ Q LN OK1) as (us & a' & b' & -> & -> & F0 & RA & s' & RS & AL & OK' & RR). cbn [map snd] in RA. inversion RA; subst a'. clear RA.
      exists (ws ++ 92%N :: e ++ s'). rewrite ER. split; [|split; [|split]].
      * change (92%N :: e ++ r1) with ((92%N :: e) ++ r1). change (92%N :: e ++ s') with ((92%N :: e) ++ s'). rewrite !app_assoc.
        eapply respelled_gap; [exact RS|exact NE1|]. cbn [l_pos]. rewrite after_app, <- (right_after (l_pos l) ws SH). destruct EE as [->| ->]; reflexivity.
      * apply alike_app. change (92%N :: e ++ r1) with ((92%N :: e) ++ r1). change (92%N :: e ++ s') with ((92%N :: e) ++ s'). apply alike_app, AL.
      * destruct OK' as [->|OK']; [pose proof (alike_ne _ _ AL NE1); congruence|]. apply ends_nl_cat, (ends_nl_cat (92%N :: e)), OK'.
      * intros w' p' CW'. eapply reread_more with (a' := []); [| | |apply (RR w' (below p') CW')].
 {
        cbn [PyTokenize.step]. rewrite Inl; [rewrite PS; reflexivity|]. rewrite ER. apply (alike_app (92%N :: e)), AL. } { reflexivity. } { reflexivity. }
    + destruct (startswith [35%N] r) eqn:S35.
      * (* a comment *)
        destruct (pseudo_comment word r SL S35) as (x & r1 & [NX UX] & ER & PS). assert (Q := Inl l r Arefl). rewrite ER in Q at 2. rewrite PS in Q by reflexivity.
        assert (OK1 : ends_nl r1) by (apply (ends_nl_app x); [exact UX|rewrite <- ER; exact OKr]).
        destruct (Next _ _ _ _ Q LN OK1) as (us & a' & b' & -> & -> & F0 & RA & s' & RS & AL & OK' & RR). cbn [map snd] in RA.
        pose proof (fun h => replaced_kts _ _ h RA) as K. specialize (K ltac:(repeat constructor; discriminate)).
        inversion RA as [|t1 t1' ? a1 X1 RA1]; subst a' t1. inversion RA1; subst a1. clear RA RA1.
        pose proof K as KK. cbn [map kt t_text t_type] in KK. injection KK as K1 K2.
        exists (ws ++ x ++ s'). split; [|split; [|split]].
        -- rewrite ER. cbn [map snd]. eapply R_token'; [right; left; reflexivity|cbn; apply right_after; exact SH|reflexivity|exact K2|]. exact RS.
        -- rewrite ER. apply alike_app, alike_app, AL.
        -- apply ends_nl_cat, ends_nl_cat, OK'.
        -- intros w' p' CW'. change (t1' :: b') with ([t1'] ++ b'). eapply reread_more; [| | |apply (RR w' (right (right p' ws) x) CW')].
 {
           cbn [PyTokenize.step]. rewrite Inl by (rewrite ER; apply alike_app, AL). rewrite PS by (apply alike_hd, AL). reflexivity. } { reflexivity. } { symmetry. exact K. }
      * destruct (opening r) as [[[p q] y]|] eqn:OP.
        -- (* a string *)
           destruct (opening_spec _ _ _ _ OP) as (ER & NP & QQ & MP).
           destruct (string_end q y) as [[x z]|] eqn:SE.
           2: { pose proof (inline_no_string word w (S fuel) l ws r p q y ts LN ST OP SE R). congruence. }
           destruct (string_end_app q QQ _ _ _ SE) as (EY & (x0 & xc & EX & XC) & SE').
           destruct (inline_string word l ws r p q y x z LN ST OP SE) as (e & _ & Q).
           assert (OK1 : ends_nl z).
           { apply (ends_nl_last (p ++ q :: x0) xc); [exact XC|]. rewrite ER, EY, EX in OKr. rewrite <- !app_assoc. cbn [app]. rewrite <- !app_assoc in OKr. exact OKr. }
           destruct (Next _ _ _ _ Q eq_refl OK1) as (us & a' & b' & -> & -> & F0 & RA & s' & RS & AL & OK' & RR). cbn [map snd] in RA.
           inversion RA as [|t1 t1' ? a1 X1 RA1]; subst a' t1. inversion RA1; subst a1. clear RA RA1.
           destruct X1 as [XT XX]. cbn [t_type t_text tok snd] in XT, XX.
           assert (V : exists x', t_text t1' = p ++ q :: x' /\ (exists x1 c, x' = x1 ++ [c] /\ c <> 10%N) /\ string_end q (x' ++ s') = Some (x', s')).
           { destruct XX as [XX|[_ (p2 & q2 & y2 & y2' & N2 & Q2 & E2 & E2' & L2 & SS)]].
             - exists x. split; [exact XX|]. split; [eauto|]. apply SE'. apply alike_hd. exact AL.
             - destruct (noq_unique _ _ _ _ _ _ NP N2 QQ Q2 E2) as (<- & <- & _). exists y2'. auto. }
           destruct V as (x' & EX' & (x1 & c1 & EX1 & C1) & SX).
           assert (ARR : alike r (p ++ q :: x' ++ s')) by (rewrite ER; apply alike_quote; assumption).
           exists (ws ++ t_text t1' ++ s'). split; [|split; [|split]].
           ++ replace (ws ++ r) with (ws ++ t_text (mk_tok TString (p ++ q :: x) (right (l_pos l) ws) e) ++ z) by (cbn [t_text]; rewrite ER, EY, <- app_assoc; reflexivity).
              cbn [map snd app]. apply (R_token _ ws); [auto|cbn; apply right_after; exact SH|]. exact RS.
           ++ rewrite EX', <- app_assoc. apply alike_app. exact ARR.
           ++ apply ends_nl_cat, ends_nl_cat, OK'.
           ++ intros w' p' CW'. change (t1' :: b') with ([t1'] ++ b').
              assert (OP' : opening (p ++ q :: x' ++ s') = Some (p, q, x' ++ s')) by (apply opening_of; assumption).
              destruct (inline_string word (mk_l p' (l_par l) (l_ins l) false) ws _ p q _ x' s' eq_refl ST OP' SX) as (e' & _ & Q').
              eapply reread_more; [| | |apply (RR w' e' CW')].
              ** cbn [PyTokenize.step]. rewrite EX', <- app_assoc. exact Q'.
              ** reflexivity.
              ** cbn. unfold kt. rewrite XT, EX'. reflexivity.
        -- (* a number, a name, an operator, the end of the line *)
           assert (Q := Inl l r Arefl). pose proof (pseudo_plain word r r SL S35 OP Arefl) as PP.
           destruct (pseudo r) as [?|k x r1|x r1|? ? ?|? ? ? ?|] eqn:PR; cbn [plain_found] in PP; try contradiction.
           ++ destruct PP as (r1' & -> & [NX UX] & ER & _).
              assert (OK1 : ends_nl r1) by (apply (ends_nl_app x); [exact UX|rewrite <- ER; exact OKr]).
              destruct (Next _ _ _ _ Q LN OK1) as (us & a' & b' & -> & -> & F0 & RA & s' & RS & AL & OK' & RR). cbn [map snd] in RA.
              pose proof (fun h => replaced_kts _ _ h RA) as K. specialize (K ltac:(repeat constructor; discriminate)).
              inversion RA as [|t1 t1' ? a1 X1 RA1]; subst a' t1. inversion RA1; subst a1. clear RA RA1.
              pose proof K as KK. cbn [map kt t_text t_type] in KK. injection KK as K1 K2.
              assert (AR : alike r (x ++ s')) by (rewrite ER; apply alike_app, AL).
              exists (ws ++ x ++ s'). split; [|split; [|split]].
              ** rewrite ER. cbn [map snd]. eapply R_token'; [right; right; reflexivity|cbn; apply right_after; exact SH|reflexivity|exact K2|]. exact RS.
              ** apply alike_app, AR.
              ** apply ends_nl_cat, ends_nl_cat, OK'.
              ** intros w' p' CW'. change (t1' :: b') with ([t1'] ++ b'). eapply reread_more; [| | |apply (RR w' (right (right p' ws) x) CW')].
 {
                 cbn [PyTokenize.step]. rewrite (Inl _ _ AR). pose proof (pseudo_plain word r _ SL S35 OP AR) as PP. rewrite PR in PP. cbn [plain_found] in PP.
                 destruct PP as (r2 & _ & _ & _ & E2 & ->). apply app_inv_head in E2 as <-. reflexivity. } { reflexivity. } { symmetry. exact K. }
           ++ destruct PP as (r1' & EX & ER & _).
              assert (OK1 : closed r1) by (apply (ends_nl_closed x); rewrite <- ER; exact OKr).
              destruct (Next _ _ _ _ Q LN OK1) as (us & a' & b' & -> & -> & F0 & RA & s' & RS & AL & OK' & RR). cbn [map snd] in RA.
              assert (K : map kt a' = map kt (map snd [tok (if (0 <? l_par l)%Z then TNl else TNewline) x (right (l_pos l) ws) (right (right (l_pos l) ws) x)])).
              { apply replaced_kts; [|exact RA]. repeat constructor. cbn. destruct (0 <? l_par l)%Z; discriminate. }
              inversion RA as [|t1 t1' ? a1 X1 RA1]; subst a' t1. inversion RA1; subst a1. clear RA RA1.
              pose proof K as KK. cbn [map kt t_text t_type tok snd] in KK. injection KK as K1 K2.
              assert (AR : alike r (x ++ s')) by (rewrite ER; apply alike_app, AL).
              exists (ws ++ x ++ s'). split; [|split; [|split]].
              ** rewrite ER. cbn [map snd]. eapply R_line'; [unfold ends_line; cbn; destruct (0 <? l_par l)%Z; auto|cbn; apply right_after; exact SH|reflexivity|exact K2|]. exact RS.
              ** apply alike_app, AR.
              ** apply ends_nl_cat, closed_nl; auto.
              ** intros w' p' CW'. change (t1' :: b') with ([t1'] ++ b'). eapply reread_more; [| | |apply (RR w' (below p') CW')].
 {
                 cbn [PyTokenize.step]. rewrite (Inl _ _ AR). pose proof (pseudo_plain word r _ SL S35 OP AR) as PP. rewrite PR in PP. cbn [plain_found] in PP.
                 destruct PP as (r2 & _ & _ & E2 & ->). apply app_inv_head in E2 as <-. reflexivity. } { reflexivity. } { symmetry. exact K. }
           ++ exfalso. cbn [PyTokenize.run PyTokenize.step] in R. rewrite Q in R. destruct (ws ++ r) as [|c r1] eqn:E; [destruct ws; [cbn in E; congruence|discriminate]|].
              destruct (run w fuel _ Inline r1) as [us e]. injection R as <- _. discriminate.
Qed.
End Word.
