(** [untokenize] gives back the file its tokens describe. *)
From Verif Require Import PyStr Lib Tokeniser Ast Parser Render Validate Api PyTokens FileHandler SpecVal SpecFile ProofFile ProofFile2 SpecSource.
Local Open Scope str_scope.
Local Open Scope list_scope.

Lemma after_app : forall a b p, after p (a ++ b) = after (after p a) b.
Proof. induction a as [|c a IH]; intros; cbn; auto. Qed.
Lemma after_line : forall s p, has 10 s = false -> after p s = (fst p, snd p + Z.of_nat (length s))%Z.
Proof.
  induction s as [|c s IH]; intros [r k] H; cbn [after length fst snd].
  - f_equal. lia.
  - cbn [has existsb] in H. apply orb_false_iff in H as [H1 H2]. rewrite N.eqb_sym in H1. rewrite H1, IH by exact H2. cbn [fst snd]. f_equal. lia.
Qed.
Lemma blanks_line : forall j, has 10 (blanks j) = false.
Proof. induction j; cbn; auto. Qed.
Lemma blanks_length : forall j, length (blanks j) = j.
Proof. intros. apply repeat_length. Qed.
Lemma after_continued : forall k p, after p (continued k) = match k with 0 => p | _ => (fst p + Z.of_nat k, 0)%Z end.
Proof.
  induction k as [|k IH]; intros p; [reflexivity|]. unfold continued in *. cbn [repeat concat app after]. cbn [N.eqb Pos.eqb fst snd]. rewrite IH.
  destruct k; cbn [fst]; f_equal; lia.
Qed.
Lemma repeat_str_blanks : forall k, repeat_str (Z.of_nat k) " " = blanks k.
Proof. intros k. unfold repeat_str, blanks. rewrite Nat2Z.id. induction k; cbn; [reflexivity|]. f_equal. exact IHk. Qed.
Lemma repeat_str_continued : forall k, repeat_str (Z.of_nat k) [92; 10]%N = continued k.
Proof. intros k. unfold repeat_str. rewrite Nat2Z.id. reflexivity. Qed.

(** the white space put in front of a token *)
Lemma add_ws : forall u k j st, st = after (u_row u, u_col u) (continued k ++ blanks j) ->
  exists u1, add_whitespace u st = Ok u1 /\ concat (u_out u1) = concat (u_out u) ++ continued k ++ blanks j
    /\ u_indents u1 = u_indents u /\ u_startline u1 = u_startline u.
Proof.
  intros u k j st ->. rewrite after_app, after_continued, after_line by apply blanks_line. rewrite blanks_length.
  unfold add_whitespace. destruct k as [|k]; cbn [fst snd].
  - replace ((u_row u <? u_row u) || (u_row u =? u_row u) && (u_col u + Z.of_nat j <? u_col u))%Z with false by (symmetry; apply orb_false_iff; split; [apply Z.ltb_ge; lia|apply andb_false_iff; right; apply Z.ltb_ge; lia]).
    replace (u_row u - u_row u =? 0)%Z with true by (symmetry; apply Z.eqb_eq; lia). cbv iota beta zeta.
    replace (u_col u + Z.of_nat j - u_col u)%Z with (Z.of_nat j) by lia. rewrite repeat_str_blanks.
    destruct j; cbn [Z.of_nat Z.eqb]; eexists; (split; [reflexivity|]); cbn [u_out u_indents u_startline]; rewrite ?repeat_concat_app, ?app_nil_r; cbn; auto.
  - replace ((u_row u + Z.of_nat (S k) <? u_row u) || (u_row u + Z.of_nat (S k) =? u_row u) && (0 + Z.of_nat j <? u_col u))%Z with false by (symmetry; apply orb_false_iff; split; [apply Z.ltb_ge; lia|apply andb_false_iff; left; apply Z.eqb_neq; lia]).
    replace (u_row u + Z.of_nat (S k) - u_row u =? 0)%Z with false by (symmetry; apply Z.eqb_neq; lia). cbv iota beta zeta.
    replace (u_row u + Z.of_nat (S k) - u_row u)%Z with (Z.of_nat (S k)) by lia. rewrite repeat_str_continued.
    replace (0 + Z.of_nat j - 0)%Z with (Z.of_nat j) by lia. rewrite repeat_str_blanks.
    destruct j; cbn [Z.of_nat Z.eqb]; eexists; (split; [reflexivity|]); cbn [u_out u_indents u_startline]; rewrite ?repeat_concat_app, ?app_nil_r, <- ?app_assoc; cbn; rewrite ?app_nil_r; auto.
Qed.

(** the state of the Untokenizer in front of the rest of the file *)
Definition matches (ins : list str) (p : place) (a : Z * Z) (u : ustate) : Prop :=
  u_indents u = ins /\ u_row u = fst a /\ Forall (fun i => has 10 i = false) ins
  /\ match p with
     | Within => u_col u = snd a /\ (ins <> [] -> u_startline u = false)
     | First => u_col u = snd a /\ snd a = 0%Z /\ u_startline u = true
     | Dedented => snd a = 0%Z /\ u_startline u = true /\ (ins = [] -> u_col u = 0%Z)
     end.
Definition kind (t : pytok) : tktype * str := (t_type t, t_text t).
Lemma gap_type : forall ins p t t' g, t_type t' = t_type t -> gap ins p t g -> gap ins p t' g.
Proof.
  intros ins p t t' g E G. assert (X : ends_line t' <-> ends_line t) by (unfold ends_line; rewrite E; tauto).
  inversion G; subst; constructor; tauto.
Qed.
(** [respelled a ts src ts' src']: [src'] is [src], which begins at [a] and has the tokens [ts], with the texts of
    [ts'] in their place. *)
Inductive respelled : Z * Z -> list pytok -> str -> list pytok -> str -> Prop :=
| R_nil : forall a, respelled a [] [] [] []
| R_end : forall a t r t' r', t_type t = TEnd -> respelled a (t :: r) [] (t' :: r') []
| R_mark : forall a t r s t' r' s', t_type t = TIndent \/ t_type t = TDedent ->
    respelled a r s r' s' -> respelled a (t :: r) s (t' :: r') s'
| R_line : forall a g t r s t' r' s', ends_line t -> t_start t = after a g ->
    respelled (fst (t_start t) + 1, 0)%Z r s r' s' ->
    respelled a (t :: r) (g ++ t_text t ++ s) (t' :: r') (g ++ t_text t' ++ s')
| R_token : forall a g t r s t' r' s', t_type t = TString \/ t_type t = TComment \/ t_type t = TOther ->
    t_start t = after a g -> respelled (t_end t) r s r' s' ->
    respelled a (t :: r) (g ++ t_text t ++ s) (t' :: r') (g ++ t_text t' ++ s').
(** Also with other texts: what comes out is a file, whose tokens are these with other positions. *)
Lemma layout : forall ins p a src ts, describes gap ins p a src ts -> forall ts', Forall2 same_place ts ts' ->
  forall u, matches ins p a u -> forall a', (p <> Within -> snd a' = 0%Z) ->
  exists u' src' ts2, untok_loop u ts' = Ok u' /\ concat (u_out u') = concat (u_out u) ++ src'
    /\ describes gap ins p a' src' ts2 /\ map kind ts2 = map kind ts' /\ (ts' = ts -> src' = src) /\ respelled a ts src ts' src'.
Proof.
  induction 1 as [ins p a|ins p a t r E|ins a src t r E HN H IH|i ins p a src t r E NW R C H IH
                 |ins p a g t src r E G S1 S2 H IH|ins p a g t src r E G S1 S2 H IH]; intros ts' F u M a' Q;
    inversion F as [|t0 t' r0 r' SP F']; subst; try (destruct SP as (ET & ES & EE & EI)).
  - exists u, [], []. cbn. rewrite app_nil_r. repeat split; auto; constructor.
  - exists u, [], (t' :: r'). cbn [untok_loop]. rewrite ET, E. cbn. rewrite app_nil_r. repeat split; auto; [apply D_end; congruence|apply R_end; exact E].
  - destruct M as (M1 & M2 & M3 & M4).
    destruct (IH r' F' (mk_u (u_out u) (u_row u) (u_col u) (t_text t' :: u_indents u) (u_startline u))) with (a' := a') as (u' & s' & t2 & B1 & B2 & B3 & B4 & B5 & B6); auto.
    { rewrite (EI E). repeat split; cbn; auto; try constructor; auto; try tauto. f_equal. exact M1. }
    exists u', s', (t' :: t2). cbn [untok_loop]. rewrite ET, E. cbn [tktype_eqb]. unfold untok_step. rewrite ET, E. cbn [rbind].
    repeat split; auto; [apply D_indent; [congruence|rewrite (EI E); exact HN|rewrite (EI E); exact B3]|cbn; congruence| |apply R_mark; auto].
    intros X. injection X as -> ->. auto.
  - destruct M as (M1 & M2 & M3 & M4). inversion M3; subst.
    destruct (IH r' F' (mk_u (u_out u) (fst (t_end t)) (snd (t_end t)) ins (u_startline u))) with (a' := a') as (u' & s' & t2 & B1 & B2 & B3 & B4 & B5 & B6); auto.
    { repeat split; cbn; auto; destruct p; try congruence; tauto. }
    exists u', s', (mk_tok (t_type t') (t_text t') (fst a', 0%Z) (fst a', 0%Z) :: t2).
    cbn [untok_loop]. rewrite ET, E. cbn [tktype_eqb]. unfold untok_step. rewrite ET, E, EE, M1. cbn [rbind].
    repeat split; auto; [apply D_dedent; auto; cbn; congruence|cbn; unfold kind at 1; cbn; f_equal; [unfold kind; congruence|exact B4]| |apply R_mark; auto].
    intros X. injection X as -> ->. auto.
  - (* end of line *)
    assert (NE : tktype_eqb (t_type t') TEnd = false) by (rewrite ET; destruct E as [E|E]; rewrite E; reflexivity).
    destruct M as (M1 & M2 & M3 & M4).
    assert (W : exists k j, g = continued k ++ blanks j /\ p <> Dedented).
    { inversion G; subst; try contradiction; [exists k, j; split; [reflexivity|discriminate]|exists 0, j; split; [reflexivity|discriminate]]. }
    destruct W as (k & j & -> & ND).
    assert (CL : u_col u = snd a) by (destruct p; tauto).
    destruct (add_ws (mk_u (u_out u) (u_row u) (u_col u) (u_indents u) true) k j (t_start t)) as (u1 & A1 & A2 & A3 & A4).
    { cbn [u_row u_col]. rewrite M2, CL, S1. destruct a; reflexivity. }
    set (st := after a' (continued k ++ blanks j)).
    destruct (IH r' F' (mk_u (u_out u1 ++ [t_text t']) (fst (t_start t) + 1) 0 (u_indents u1) true)) with (a' := (fst st + 1, 0)%Z) as (u' & s' & t2 & B1 & B2 & B3 & B4 & B5 & B6); auto.
    { repeat split; cbn; auto. cbn in A3. congruence. }
    exists u', ((continued k ++ blanks j) ++ t_text t' ++ s'), (mk_tok (t_type t') (t_text t') st (fst st, 0%Z) :: t2).
    split; [|split; [|split; [|split; [|split]]]].
    + cbn [untok_loop]. rewrite NE. unfold untok_step. rewrite ET, ES, EE.
      destruct E as [E|E]; rewrite E; cbn [is_line_end]; rewrite A1; cbn [rbind]; destruct (t_end t) as [er ec]; cbn [fst] in S2; subst er; cbn [rbind]; cbn in A4; rewrite A4; exact B1.
    + rewrite B2. cbn [u_out]. rewrite repeat_concat_app, A2. cbn [u_out]. rewrite <- !app_assoc. reflexivity.
    + apply (D_line _ ins p a' (continued k ++ blanks j) (mk_tok (t_type t') (t_text t') st (fst st, 0%Z)));
        [unfold ends_line; cbn; rewrite ET; exact E|apply (gap_type _ _ t); auto|reflexivity|reflexivity|exact B3].
    + cbn. unfold kind at 1. cbn. f_equal. exact B4.
    + intros X. injection X as -> ->. rewrite B5 by reflexivity. reflexivity.
    + apply R_line; auto.
  - (* another token *)
    assert (NE : tktype_eqb (t_type t') TEnd = false) by (rewrite ET; destruct E as [E|[E|E]]; rewrite E; reflexivity).
    assert (NL : ~ ends_line t) by (intros [X|X]; destruct E as [E|[E|E]]; congruence).
    destruct M as (M1 & M2 & M3 & M4).
    set (u0 := if u_startline u then match u_indents u with
          | ind :: _ => if (Z.of_nat (length ind) <=? snd (t_start t))%Z
             then mk_u (u_out u ++ [ind]) (u_row u) (Z.of_nat (length ind)) (u_indents u) false
             else mk_u (u_out u) (u_row u) (u_col u) (u_indents u) false
          | [] => u end else u).
    assert (ST : untok_step u t' = (u1 <- add_whitespace u0 (t_start t) ;; Ok (mk_u (u_out u1 ++ [t_text t']) (fst (t_end t)) (snd (t_end t)) (u_indents u1) (u_startline u1)))).
    { unfold untok_step. rewrite ET, ES, EE. destruct E as [E|[E|E]]; rewrite E; cbn [is_line_end]; fold u0; destruct (t_end t); reflexivity. }
    assert (W : exists pre k j, concat (u_out u0) = concat (u_out u) ++ pre /\ g = pre ++ continued k ++ blanks j
       /\ t_start t = after (u_row u0, u_col u0) (continued k ++ blanks j) /\ u_indents u0 = ins /\ (ins <> [] -> u_startline u0 = false)).
    { subst u0. clear IH F F'. inversion G; subst.
      - destruct M4 as [M4 M5]. exists [], k, j. rewrite app_nil_r.
        assert (S1' : t_start t = after (u_row u, u_col u) (continued k ++ blanks j)) by (rewrite S1, M2, M4; destruct a; reflexivity).
        destruct (u_indents u) as [|i l] eqn:I.
        + destruct (u_startline u); repeat split; auto; intros X; destruct X; reflexivity.
        + assert (SL : u_startline u = false) by (apply M5; discriminate). rewrite SL. auto 6.
      - assert (P0 : snd a = 0%Z /\ u_startline u = true /\ (u_indents u = [] -> u_col u = 0%Z)) by (destruct p; intuition congruence).
        destruct P0 as (P1 & P2 & P3). rewrite P2. destruct (u_indents u) as [|i l] eqn:I.
        + exists [], 0, j. rewrite app_nil_r. cbn [hd app] in *. repeat split; auto; [|tauto]. rewrite S1, M2, P3 by reflexivity. cbn. rewrite <- P1, <- surjective_pairing. reflexivity.
        + cbn [hd] in *. inversion M3; subst. rewrite after_app, (after_line i) in S1 by assumption. rewrite P1 in S1.
          assert (LE : (Z.of_nat (length i) <=? snd (t_start t))%Z = true).
          { rewrite S1, after_line by apply blanks_line. cbn [snd]. apply Z.leb_le. lia. }
          rewrite LE. exists i, 0, j. cbn [u_out u_row u_col u_indents u_startline]. rewrite repeat_concat_app. repeat split; auto. rewrite S1, M2. reflexivity.
      - destruct M4 as (P1 & P2 & P3). rewrite P3. destruct (u_indents u) as [|i l] eqn:I; [cbn in *; lia|]. cbn [hd] in *.
        assert (LE : (Z.of_nat (length i) <=? snd (t_start t))%Z = false).
        { rewrite S1, after_line by apply blanks_line. cbn [snd]. rewrite blanks_length. apply Z.leb_gt. lia. }
        rewrite LE. exists [], 0, j. cbn [u_out u_row u_col u_indents u_startline app]. rewrite app_nil_r. repeat split; auto. rewrite S1, M2, P1, <- surjective_pairing. reflexivity.
      - contradiction. }
    set (g0 := g) in *. destruct W as (pre & k & j & W1 & W0 & W2 & W3 & W4).
    destruct (add_ws u0 k j (t_start t) W2) as (u1 & A1 & A2 & A3 & A4).
    set (st := after a' g0). set (en := after st (t_text t')).
    destruct (IH r' F' (mk_u (u_out u1 ++ [t_text t']) (fst (t_end t)) (snd (t_end t)) (u_indents u1) (u_startline u1))) with (a' := en) as (u' & s' & t2 & B1 & B2 & B3 & B4 & B5 & B6).
    { repeat split; cbn; auto; [congruence|]. intros X. rewrite A4. auto. }
    { intros X. congruence. }
    exists u', (g0 ++ t_text t' ++ s'), (mk_tok (t_type t') (t_text t') st en :: t2).
    split; [|split; [|split; [|split; [|split]]]].
    + cbn [untok_loop]. rewrite NE, ST, A1. cbn [rbind]. exact B1.
    + rewrite B2. cbn [u_out]. rewrite repeat_concat_app, A2, W1, W0, <- !app_assoc. reflexivity.
    + apply (D_token _ ins p a' g0 (mk_tok (t_type t') (t_text t') st en)); [cbn; rewrite ET; exact E|apply (gap_type _ _ t); auto|reflexivity|reflexivity|exact B3].
    + cbn. unfold kind at 1. cbn. f_equal. exact B4.
    + intros X. injection X as -> ->. rewrite B5 by reflexivity. reflexivity.
    + apply R_token; auto.
Qed.
Lemma matches0 : matches [] Within (1, 0)%Z ustate0.
Proof. repeat split; auto. Qed.
Lemma same_place_refl : forall ts, Forall2 same_place ts ts.
Proof. induction ts; constructor; auto. repeat split; auto. Qed.
Lemma untokenize_file : forall src ts, tokens_of_file src ts -> untokenize ts = Ok src.
Proof.
  intros src ts H. destruct (layout _ _ _ _ _ H ts (same_place_refl ts) ustate0 matches0 (1, 0)%Z) as (u & s & t2 & A & B & _ & _ & C & _); [congruence|].
  unfold untokenize. rewrite A. cbn [rbind]. rewrite B, C by reflexivity. reflexivity.
Qed.
Lemma untokenize_again : forall src ts ts' c, tokens_of_file src ts -> Forall2 same_place ts ts' -> untokenize ts' = Ok c ->
  exists ts2, tokens_of_file c ts2 /\ map kind ts2 = map kind ts'.
Proof.
  intros src ts ts' c H F U. destruct (layout _ _ _ _ _ H ts' F ustate0 matches0 (1, 0)%Z) as (u & s & t2 & A & B & C & D & _ & _); [congruence|].
  unfold untokenize in U. rewrite A in U. cbn [rbind] in U. injection U as <-. rewrite B. exists t2. auto.
Qed.
Lemma untokenize_respelled : forall src ts ts', tokens_of_file src ts -> Forall2 same_place ts ts' ->
  exists c, untokenize ts' = Ok c /\ respelled (1, 0)%Z ts src ts' c.
Proof.
  intros src ts ts' H F. destruct (layout _ _ _ _ _ H ts' F ustate0 matches0 (1, 0)%Z) as (u & s & t2 & A & B & _ & _ & _ & C); [congruence|].
  exists s. unfold untokenize. rewrite A. cbn [rbind]. rewrite B. auto.
Qed.
Section File.
  Variable ord : fields -> fields.
  Variables fmt val : bool.
  Lemma file_kept : forall src ts eos r, tokens_of_file src ts -> compute_file_content ord fmt val ts eos = Ok r ->
    exists ts' ws,
      Forall2 (fun t t' => t_type t' = t_type t /\ t_start t' = t_start t /\ t_end t' = t_end t /\
        (t_text t' = t_text t
         \/ (t_type t = TString /\ is_select_string (t_text t) = true
             /\ exists q, handle_sql_string (t_text t) = Ok (t_text t', q)))) ts ts'
      /\ length ws = length (printed ts)
      /\ src = weave ws (printed ts)
      /\ r_content r = weave ws (printed ts')
      /\ r_changed r = differences ts ts'.
  Proof.
    intros src ts eos r T H. destruct (only_sql_strings ord fmt val ts eos r H) as (ts' & ws & A & B & C & D & E).
    rewrite (untokenize_file src ts T) in C. injection C as C. exists ts', ws. auto 6.
  Qed.
  Lemma differences_same : forall ts ts', Forall2 (fun t t' => t_type t' = t_type t) ts ts' ->
    differences ts ts' = 0 -> printed ts' = printed ts.
  Proof.
    intros ts ts' F. induction F as [|t t' a b X F IH]; cbn; auto. intros D. destruct (str_eqb_spec (t_text t) (t_text t')); [|lia].
    rewrite X, IH, e by lia. reflexivity.
  Qed.
  Lemma file_unchanged : forall src ts eos r, tokens_of_file src ts -> compute_file_content ord fmt val ts eos = Ok r ->
    r_changed r = 0 -> r_content r = src.
  Proof.
    intros src ts eos r T H Z. destruct (file_kept src ts eos r T H) as (ts' & ws & A & B & C & D & E). rewrite D, C. f_equal.
    apply differences_same; [|congruence]. clear -A. induction A as [|? ? ? ? (X & _)]; constructor; auto.
  Qed.
End File.
Definition tab_source : str := "x" ++ [9%N] ++ "= 1" ++ nl.
Definition tab_tokens : list pytok :=
  [mk_tok TOther "x" (1, 0)%Z (1, 1)%Z; mk_tok TOther "=" (1, 2)%Z (1, 3)%Z;
   mk_tok TOther "1" (1, 4)%Z (1, 5)%Z; mk_tok TNewline nl (1, 5)%Z (1, 6)%Z; mk_tok TEnd "" (2, 0)%Z (2, 0)%Z].
Lemma white_space_lost : exists src ts r, tokens_of_any_file src ts
  /\ compute_file_content (fun x => x) true false ts None = Ok r /\ r_changed r = 0 /\ r_content r <> src.
Proof.
  exists tab_source, tab_tokens. eexists. split; [|split; [vm_compute; reflexivity|split; [reflexivity|discriminate]]].
  unfold tokens_of_any_file, tab_tokens.
  apply (D_token _ [] Within (1, 0)%Z [] (mk_tok TOther "x" (1, 0)%Z (1, 1)%Z)); [auto|constructor|reflexivity|reflexivity|].
  apply (D_token _ [] Within (1, 1)%Z [9%N] (mk_tok TOther "=" (1, 2)%Z (1, 3)%Z)); [auto| |reflexivity|reflexivity|].
  { apply white_cons; [cbn; auto|constructor]. }
  apply (D_token _ [] Within (1, 3)%Z [32%N] (mk_tok TOther "1" (1, 4)%Z (1, 5)%Z)); [auto| |reflexivity|reflexivity|].
  { apply white_cons; [cbn; auto|constructor]. }
  apply (D_line _ [] Within (1, 5)%Z [] (mk_tok TNewline nl (1, 5)%Z (1, 6)%Z)); [left; reflexivity|constructor|reflexivity|reflexivity|].
  apply D_end. reflexivity.
Qed.
