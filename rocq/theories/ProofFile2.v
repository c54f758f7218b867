(** Lemmas about one Python file, continued: re-assembly, comments, quotes. *)
From Verif Require Import PyStr Lib Tokeniser Ast Parser Render Validate Api ProofApi PyTokens FileHandler
  SpecVal SpecFile ProofFile.
Local Open Scope str_scope.
Local Open Scope list_scope.

(** ** untokenize *)
Definition core (u : ustate) := (u_row u, u_col u, u_indents u, u_startline u).
(** same token, but perhaps for the text *)
Definition same_place (t t' : pytok) : Prop :=
  t_type t' = t_type t /\ t_start t' = t_start t /\ t_end t' = t_end t
  /\ (t_type t = TIndent -> t_text t' = t_text t).

Lemma repeat_concat_app : forall (a : list str) b, concat (a ++ [b]) = concat a ++ b.
Proof. intros. rewrite concat_app. cbn. rewrite app_nil_r. auto. Qed.

Lemma add_whitespace_ws : forall u st u1, add_whitespace u st = Ok u1 ->
  exists w, concat (u_out u1) = concat (u_out u) ++ w /\
  forall u', core u' = core u -> exists u1', add_whitespace u' st = Ok u1' /\
    concat (u_out u1') = concat (u_out u') ++ w /\ core u1' = core u1.
Proof.
  intros u [row col] u1 H. unfold add_whitespace in *.
  destruct (_ || _)%bool eqn:C; [discriminate|].
  destruct (row - u_row u =? 0)%Z eqn:C1; cbv zeta beta iota in H;
  [ destruct (col - u_col u =? 0)%Z eqn:C2 | destruct (col - 0 =? 0)%Z eqn:C2 ]; injection H as <-; cbn [u_out].
  - exists []. rewrite app_nil_r. split; auto. intros u' E. injection E as E1 E2 E3 E4.
    rewrite E1, E2, C, C1, C2. eexists. split; [reflexivity|]. cbn. rewrite app_nil_r. unfold core. cbn. split; congruence.
  - exists (repeat_str (col - u_col u) " "). rewrite repeat_concat_app. split; auto. intros u' E. injection E as E1 E2 E3 E4.
    rewrite E1, E2, C, C1, C2. eexists. split; [reflexivity|]. cbn. rewrite repeat_concat_app. unfold core. cbn. split; congruence.
  - exists (repeat_str (row - u_row u) [92; 10]%N). rewrite repeat_concat_app. split; auto. intros u' E. injection E as E1 E2 E3 E4.
    rewrite E1, E2, C, C1, C2. eexists. split; [reflexivity|]. cbn. rewrite repeat_concat_app. unfold core. cbn. split; congruence.
  - exists (repeat_str (row - u_row u) [92; 10]%N ++ repeat_str (col - 0) " "). rewrite !repeat_concat_app, app_assoc. split; auto.
    intros u' E. injection E as E1 E2 E3 E4.
    rewrite E1, E2, C, C1, C2. eexists. split; [reflexivity|]. cbn. rewrite !repeat_concat_app, app_assoc. unfold core. cbn. split; congruence.
Qed.

Ltac use_main Main H T :=
  let w := fresh "w" in let W1 := fresh "W" in let W2 := fresh "W" in
  match type of H with rbind (add_whitespace ?ua _) _ = _ =>
    let wa := match ua with mk_u (_ ++ [?i]) _ _ _ _ => constr:(i) | _ => constr:(@nil N) end in
    destruct (Main ua wa ltac:(cbn [u_out]; rewrite ?repeat_concat_app, ?app_nil_r; reflexivity) H) as (w & W1 & W2)
  end;
  exists w; split; [exact W1|];
  let u' := fresh "u" in let t' := fresh "t" in let S := fresh "S" in let Ec := fresh "Ec" in
  intros u' t' S Ec;
  let S1 := fresh in let S2 := fresh in let S3 := fresh in let S4 := fresh in
  pose proof S as (S1 & S2 & S3 & S4); rewrite S1, T, S2, S3; cbn [is_line_end];
  unfold core in Ec;
  let E1 := fresh in let E2 := fresh in let E3 := fresh in let E4 := fresh in
  injection Ec as E1 E2 E3 E4;
  repeat (match goal with
  | |- context [if u_startline u' then _ else _] => rewrite E4
  | |- context [match u_indents u' with _ => _ end] => rewrite E3
  | H : u_startline _ = _ |- context [if u_startline _ then _ else _] => rewrite H
  | H : u_indents _ = _ |- context [match u_indents _ with _ => _ end] => rewrite H
  | H : (_ <=? _)%Z = _ |- context [if (_ <=? _)%Z then _ else _] => rewrite H
  end);
  apply (W2 u' t'); [exact S | unfold core; cbn; congruence
                    | cbn [u_out]; rewrite ?repeat_concat_app, ?app_nil_r; reflexivity].

Definition noprint (t : pytok) : bool := match t_type t with TIndent | TDedent => true | _ => false end.
Lemma untok_step_ws : forall u t u1, untok_step u t = Ok u1 ->
  exists w, concat (u_out u1) = concat (u_out u) ++ (if noprint t then [] else w ++ t_text t) /\
  forall u' t', same_place t t' -> core u' = core u -> exists u1', untok_step u' t' = Ok u1' /\
    concat (u_out u1') = concat (u_out u') ++ (if noprint t then [] else w ++ t_text t') /\ core u1' = core u1.
Proof.
  intros u t u1 H.
  assert (Main : noprint t = false -> forall ua wa,
    concat (u_out ua) = concat (u_out u) ++ wa ->
    (u <- add_whitespace ua (t_start t) ;;
     let '(er, ec) := t_end t in
     let '(er, ec) := if is_line_end (t_type t) then ((er + 1)%Z, 0%Z) else (er, ec) in
     Ok (mk_u (u_out u ++ [t_text t]) er ec (u_indents u) (u_startline u))) = Ok u1 ->
    exists w, concat (u_out u1) = concat (u_out u) ++ w ++ t_text t /\
    forall u' t' ua', same_place t t' -> core ua' = core ua -> concat (u_out ua') = concat (u_out u') ++ wa ->
     exists u1', (u <- add_whitespace ua' (t_start t) ;;
     let '(er, ec) := t_end t in
     let '(er, ec) := if is_line_end (t_type t) then ((er + 1)%Z, 0%Z) else (er, ec) in
     Ok (mk_u (u_out u ++ [t_text t']) er ec (u_indents u) (u_startline u))) = Ok u1'
     /\ concat (u_out u1') = concat (u_out u') ++ w ++ t_text t' /\ core u1' = core u1).
  { intros _ ua wa Ea Hm. inv_bind Hm. destruct (t_end t) as [er ec].
    apply add_whitespace_ws in Hb as (w & E1 & E2). exists (wa ++ w).
    split.
    - destruct (is_line_end (t_type t)); injection Hm as <-; cbn [u_out];
        rewrite repeat_concat_app, E1, Ea, <- !app_assoc; auto.
    - intros u' t' ua' S Ec Eo. destruct (E2 ua' Ec) as (u1' & F1 & F2 & F3). rewrite F1. cbn [rbind].
      injection F3 as G1 G2 G3 G4.
      destruct (is_line_end (t_type t)); injection Hm as <-; eexists; (split; [reflexivity|]); cbn [u_out];
        rewrite repeat_concat_app, F2, Eo, <- !app_assoc; split; auto; unfold core; cbn; congruence. }
  unfold untok_step in *.
  destruct (t_type t) eqn:T.
  4:{ (* indent *) exists []. injection H as <-. unfold noprint. rewrite T. rewrite app_nil_r. split; auto.
      intros u' t' (S1 & S2 & S3 & S4) Ec. injection Ec as E1 E2 E3 E4. rewrite S1, T, (S4 T).
      eexists. split; [reflexivity|]. cbn. rewrite app_nil_r. split; auto. unfold core. cbn. congruence. }
  4:{ (* dedent *) exists []. unfold noprint. rewrite T, app_nil_r. destruct (u_indents u) as [|i l] eqn:I; [discriminate|].
      injection H as <-. split; auto.
      intros u' t' (S1 & S2 & S3 & S4) Ec. unfold core in Ec. rewrite I in Ec. injection Ec as E1 E2 E3 E4. rewrite S1, T, S3, E3.
      eexists. split; [reflexivity|]. cbn. rewrite app_nil_r. split; auto. unfold core. cbn. congruence. }
  all: specialize (Main ltac:(unfold noprint; rewrite T; reflexivity)).
  all: assert (NP : noprint t = false) by (unfold noprint; rewrite T; reflexivity); rewrite NP; clear NP.
  all: cbn [is_line_end] in *.
  all: try (use_main Main H T).
  all: destruct (u_startline u) eqn:SL.
  all: try (use_main Main H T).
  all: destruct (u_indents u) as [|ind inds] eqn:I.
  all: try (use_main Main H T).
  all: destruct (Z.of_nat (length ind) <=? snd (t_start t))%Z eqn:LE.
  all: use_main Main H T.
Qed.

Lemma untok_loop_ws : forall ts u u2, untok_loop u ts = Ok u2 ->
  exists ws, length ws = length (printed ts)
  /\ concat (u_out u2) = concat (u_out u) ++ weave ws (printed ts)
  /\ forall ts' u', Forall2 same_place ts ts' -> core u' = core u ->
     exists u2', untok_loop u' ts' = Ok u2' /\ concat (u_out u2') = concat (u_out u') ++ weave ws (printed ts').
Proof.
  induction ts as [|t ts IH]; intros u u2 H; cbn in H.
  - injection H as <-. exists []. cbn. rewrite app_nil_r. repeat split; auto.
    intros ts' u' F _. inversion F; subst. cbn. exists u'. rewrite app_nil_r. auto.
  - destruct (tktype_eqb (t_type t) TEnd) eqn:TE.
    + injection H as <-. exists []. cbn. assert (t_type t = TEnd) as T by (destruct (t_type t); auto; discriminate).
      rewrite T. cbn. rewrite app_nil_r. repeat split; auto.
      intros ts' u' F _. inversion F as [|? t' ? ? S F']; subst. destruct S as (S1 & _). cbn. rewrite S1, T. cbn. exists u'.
      rewrite app_nil_r. auto.
    + inv_bind H. apply untok_step_ws in Hb as (w & W1 & W2).
      apply IH in H as (ws & L & E & G).
      assert (P : forall x r, t_type x = t_type t -> printed (x :: r) = if noprint t then printed r else t_text x :: printed r).
      { intros x r Ex. cbn. rewrite Ex. unfold noprint. destruct (t_type t); auto; discriminate. }
      exists (if noprint t then ws else w :: ws). split; [|split].
      * rewrite P by auto. destruct (noprint t); cbn; auto.
      * rewrite E, W1, P by auto. destruct (noprint t); cbn [weave]; rewrite <- ?app_assoc, ?app_nil_r; auto.
      * intros ts' u' F Ec. inversion F as [|? t' ? ts2 S F']; subst.
        destruct (W2 u' t' S Ec) as (u1' & A1 & A2 & A3).
        destruct (G ts2 u1' F' A3) as (u2' & B1 & B2).
        exists u2'. pose proof S as (S1 & _). cbn [untok_loop]. rewrite S1, TE, A1. cbn [rbind]. split; auto.
        rewrite B2, A2, P by auto. destruct (noprint t); cbn [weave]; rewrite <- ?app_assoc, ?app_nil_r; auto.
Qed.
Lemma untokenize_ws : forall ts c, untokenize ts = Ok c ->
  exists ws, length ws = length (printed ts) /\ c = weave ws (printed ts)
  /\ forall ts', Forall2 same_place ts ts' -> untokenize ts' = Ok (weave ws (printed ts')).
Proof.
  intros ts c H. unfold untokenize in H. inv_bind H. injection H as <-.
  apply untok_loop_ws in Hb as (ws & L & E & G). exists ws. split; auto. split; auto.
  intros ts' F. destruct (G ts' ustate0 F eq_refl) as (u2 & E1 & E2). unfold untokenize. rewrite E1. cbn. rewrite E2. auto.
Qed.

(** ** What becomes of the tokens *)
Section File.
  Variable ord : fields -> fields.
  Variables fmt val : bool.

  Lemma new_tokens_nth : forall a t r, nth_error (new_tokens fmt val (a ++ t :: r)) (length a)
    = Some (with_text t (new_text fmt val t r)).
  Proof. induction a; intros; cbn; auto. Qed.

  Lemma new_tokens_place : forall ts, Forall2 (fun t t' => same_place t t' /\
     (t_text t' = t_text t \/ (sql_string t = true /\ t_text t' = rewritten (t_text t)))) ts (new_tokens fmt val ts).
  Proof.
    induction ts as [|t ts IH]; cbn; constructor; auto. split.
    - unfold same_place. cbn. repeat split; auto. intros T. unfold new_text, sql_string. rewrite T. auto.
    - cbn. unfold new_text. destruct (sql_string t); auto.
      destruct ts as [|y r]; auto. destruct (find is_marker (y :: r)); auto.
      destruct (contains _ _); auto. destruct (_ && _); auto.
  Qed.
  Lemma differences_0 : forall ts, differences ts (new_tokens fmt val ts) = 0 -> new_tokens fmt val ts = ts.
  Proof.
    induction ts as [|t ts IH]; cbn; auto. intros H.
    destruct (str_eqb_spec (t_text t) (new_text fmt val t ts)); [|lia].
    rewrite IH by lia. rewrite <- e. rewrite tok_eta. auto.
  Qed.

  Lemma only_sql_strings : forall ts eos r,
    compute_file_content ord fmt val ts eos = Ok r ->
    exists ts' ws,
      Forall2 (fun t t' => t_type t' = t_type t /\ t_start t' = t_start t /\ t_end t' = t_end t /\
        (t_text t' = t_text t
         \/ (t_type t = TString /\ is_select_string (t_text t) = true
             /\ exists q, handle_sql_string (t_text t) = Ok (t_text t', q)))) ts ts'
      /\ length ws = length (printed ts)
      /\ untokenize ts = Ok (weave ws (printed ts))
      /\ r_content r = weave ws (printed ts')
      /\ r_changed r = differences ts ts'.
  Proof.
    intros ts eos r H. unfold compute_file_content in H. inv_bind H. inv_bind H. injection H as <-.
    cbn [r_content r_changed]. pose proof (compute_tokens_spec ord fmt val ts eos) as C. rewrite Hb in C. destruct C as (-> & -> & _).
    cbn [c_tokens c_changed] in *.
    exists (new_tokens fmt val ts).
    pose proof (new_tokens_place ts) as P.
    apply untokenize_ws in Hb0 as (ws & L & -> & G).
    exists ws.
    assert (PL : length (printed (new_tokens fmt val ts)) = length (printed ts)).
    { clear. induction ts; cbn; auto. destruct (t_type a); cbn; auto. }
    split; [|split; [congruence|split; [|auto]]].
    - clear -P. induction P as [|t t' l l' [(A & B & C & _) D] P IH]; constructor; auto.
      repeat split; auto. destruct D as [D|[D1 D2]]; auto. unfold sql_string in D1.
      destruct (t_type t) eqn:T; try discriminate.
      unfold rewritten in D2. destruct (handle_sql_string (t_text t)) as [[v q]|]; auto.
      right. split; auto. split; auto. exists q. congruence.
    - apply G. clear -P. induction P as [|t t' l l' [(A & B & C & D) _] P IH]; constructor; auto.
      unfold same_place. repeat split; auto. intros T. symmetry. apply D. congruence.
  Qed.

  (** the text of one string in a successful run *)
  Lemma result_at : forall a t b eos s, compute_tokens ord fmt val (a ++ t :: b) eos = Ok s ->
    nth_error (c_tokens s) (length a) = Some (with_text t (new_text fmt val t b)).
  Proof.
    intros a t b eos s H. pose proof (compute_tokens_spec ord fmt val (a ++ t :: b) eos) as C. rewrite H in C.
    destruct C as (-> & _). cbn. apply new_tokens_nth.
  Qed.
  Lemma with_text_eta : forall t, with_text t (t_text t) = t.
  Proof. intros []. reflexivity. Qed.

  Lemma nosqlformat : forall a t m x b eos s,
    compute_tokens ord fmt val (a ++ t :: m ++ x :: b) eos = Ok s ->
    (forall y, In y m -> t_type y <> TComment /\ t_type y <> TString /\ t_type y <> TEnd) ->
    t_type x = TComment -> contains "nosqlformat" (t_text x) = true ->
    nth_error (c_tokens s) (length a) = Some t.
  Proof.
    intros a t m x b eos s H M T C. rewrite (result_at _ _ _ _ _ H).
    assert (F : find is_marker (m ++ x :: b) = Some x).
    { apply find_mid; [|unfold is_marker; rewrite T; auto].
      apply Forall_forall. intros y I. destruct (M y I) as (M1 & M2 & M3). unfold is_marker.
      destruct (t_type y); auto; contradiction. }
    assert (N : new_text fmt val t (m ++ x :: b) = t_text t).
    { unfold new_text. destruct (sql_string t); auto. destruct (m ++ x :: b) eqn:E; [destruct m; discriminate|].
      rewrite F, C. auto. }
    rewrite N, with_text_eta. auto.
  Qed.
  (** the opposite: an unprotected SQL string gets its formatted form *)
  Lemma formatted_string : forall a t m x b eos s, fmt = true ->
    compute_tokens ord fmt val (a ++ t :: m ++ x :: b) eos = Ok s ->
    t_type t = TString -> is_select_string (t_text t) = true ->
    (forall y, In y m -> t_type y <> TComment /\ t_type y <> TString /\ t_type y <> TEnd) ->
    (t_type x = TComment \/ t_type x = TString \/ t_type x = TEnd) -> contains "nosqlformat" (t_text x) = false ->
    exists v q, handle_sql_string (t_text t) = Ok (v, q)
      /\ nth_error (c_tokens s) (length a) = Some (with_text t v).
  Proof.
    intros a t m x b eos s FM H T S M X C.
    assert (F : find is_marker (m ++ x :: b) = Some x).
    { apply find_mid; [|unfold is_marker; destruct X as [->|[->| ->]]; auto].
      apply Forall_forall. intros y I. destruct (M y I) as (M1 & M2 & M3). unfold is_marker.
      destruct (t_type y); auto; contradiction. }
    rewrite (result_at _ _ _ _ _ H).
    assert (N : new_text fmt val t (m ++ x :: b) = rewritten (t_text t)).
    { unfold new_text, sql_string. rewrite T, S. destruct (m ++ x :: b) eqn:E; [destruct m; discriminate|].
      rewrite F, C, FM. rewrite andb_false_r. auto. }
    rewrite N. unfold rewritten.
    destruct (handle_sql_string (t_text t)) as [[v q]|e] eqn:Hs; [eauto|]. exfalso.
    pose proof (compute_tokens_spec ord fmt val (a ++ t :: m ++ x :: b) eos) as CS. rewrite H in CS.
    destruct CS as (_ & _ & FN). eapply (FN a t (m ++ x :: b)); [reflexivity|]. apply fails_format; [|exact Hs].
    unfold handled, sql_string. rewrite T, S. destruct (m ++ x :: b) eqn:E; [destruct m; discriminate|].
    rewrite F, C, FM. cbn. rewrite orb_true_r. auto.
  Qed.

  (** ** Validation does not depend on the text of a string marked nosqlvalidation *)
  Lemma find_marker_same : forall a t t' r, t_type t' = t_type t ->
    (find is_marker (a ++ t :: r) = Some t /\ find is_marker (a ++ t' :: r) = Some t')
    \/ find is_marker (a ++ t :: r) = find is_marker (a ++ t' :: r).
  Proof.
    induction a as [|y a IH]; intros t t' r E; cbn.
    - assert (X : is_marker t' = is_marker t) by (unfold is_marker; rewrite E; auto).
      rewrite X. destruct (is_marker t); auto.
    - destruct (is_marker y); auto.
  Qed.
  Lemma report_same : forall y a t t' r, t_type t' = t_type t ->
    contains "nosqlvalidation" (t_text t') = contains "nosqlvalidation" (t_text t) ->
    report_of ord val y (a ++ t :: r) = report_of ord val y (a ++ t' :: r).
  Proof.
    intros y a t t' r E C. unfold report_of.
    destruct (find_marker_same a t t' r E) as [[F1 F2]|F].
    - destruct a; cbn [app] in *; rewrite F1, F2, C; reflexivity.
    - destruct a; cbn [app] in *; rewrite F; reflexivity.
  Qed.
  Lemma reports_same : forall a t t' r, t_type t' = t_type t ->
    contains "nosqlvalidation" (t_text t') = contains "nosqlvalidation" (t_text t) ->
    report_of ord val t r = [] -> report_of ord val t' r = [] ->
    reports ord val (a ++ t :: r) = reports ord val (a ++ t' :: r).
  Proof.
    induction a as [|y a IH]; intros t t' r E C R1 R2; cbn.
    - rewrite R1, R2. auto.
    - rewrite (report_same y a t t' r E C), (IH t t' r); auto.
  Qed.
  Lemma nosqlvalidation : forall a t m x b eos s v s',
    compute_tokens ord fmt val (a ++ t :: m ++ x :: b) eos = Ok s ->
    (forall y, In y m -> t_type y <> TComment /\ t_type y <> TString /\ t_type y <> TEnd) ->
    t_type x = TComment -> contains "nosqlvalidation" (t_text x) = true ->
    contains "nosqlvalidation" v = contains "nosqlvalidation" (t_text t) ->
    compute_tokens ord fmt val (a ++ with_text t v :: m ++ x :: b) eos = Ok s' ->
    c_invalid s' = c_invalid s /\ c_locs s' = c_locs s.
  Proof.
    intros a t m x b eos s v s' H M T C V H'.
    assert (F : find is_marker (m ++ x :: b) = Some x).
    { apply find_mid; [|unfold is_marker; rewrite T; auto].
      apply Forall_forall. intros y I. destruct (M y I) as (M1 & M2 & M3). unfold is_marker.
      destruct (t_type y); auto; contradiction. }
    pose proof (compute_tokens_spec ord fmt val (a ++ t :: m ++ x :: b) eos) as C1. rewrite H in C1.
    pose proof (compute_tokens_spec ord fmt val (a ++ with_text t v :: m ++ x :: b) eos) as C2. rewrite H' in C2.
    destruct C1 as (-> & _). destruct C2 as (-> & _). cbn [c_invalid c_locs].
    assert (RN : forall t, report_of ord val t (m ++ x :: b) = []).
    { intros u. unfold report_of. destruct (m ++ x :: b) eqn:E; [destruct m; discriminate|].
      rewrite F, C. rewrite !andb_false_r. auto. }
    rewrite (reports_same a t (with_text t v)); auto.
  Qed.
  Lemma reports_exact : forall ts eos r, compute_file_content ord fmt val ts eos = Ok r ->
    r_locs r = reports ord val ts /\ r_invalid r = length (reports ord val ts).
  Proof.
    intros ts eos r H. unfold compute_file_content in H. inv_bind H. inv_bind H. injection H as <-.
    pose proof (compute_tokens_spec ord fmt val ts eos) as C. rewrite Hb in C. destruct C as (-> & _). auto.
  Qed.

  Lemma change_count : forall ts eos r s,
    compute_tokens ord fmt val ts eos = Ok s -> compute_file_content ord fmt val ts eos = Ok r ->
    r_changed r = differences ts (c_tokens s) /\ (r_changed r = 0 -> c_tokens s = ts).
  Proof.
    intros ts eos r s S H. unfold compute_file_content in H. rewrite S in H. cbn in H. inv_bind H. injection H as <-.
    pose proof (compute_tokens_spec ord fmt val ts eos) as C. rewrite S in C. destruct C as (-> & _).
    cbn. split; auto. apply differences_0.
  Qed.
End File.

(** ** C38 *)
Definition strippable : str := " '""`ufbr" ++ nl.
Lemma lstrip_split : forall chars s, exists pre, s = pre ++ lstrip chars s /\ (forall c, In c pre -> In c chars)
  /\ (lstrip chars s = [] \/ exists c r, lstrip chars s = c :: r /\ ~ In c chars).
Proof.
  intros chars. induction s as [|c r (pre & E & F & G)]; cbn.
  - exists []. cbn. repeat split; auto. intros c [].
  - destruct (existsb (N.eqb c) chars) eqn:X.
    + exists (c :: pre). cbn. rewrite <- E. split; auto. split; auto. intros d [<-|I]; auto.
      apply has_In in X. auto.
    + exists []. cbn. repeat split; auto. intros d []. right. exists c, r. split; auto.
      apply has_false in X. auto.
Qed.
Lemma lstrip_app : forall chars pre s, (forall c, In c pre -> In c chars) -> lstrip chars (pre ++ s) = lstrip chars s.
Proof.
  intros chars. induction pre; intros s H; cbn; auto.
  assert (existsb (N.eqb a) chars = true) as -> by (apply has_In; apply H; left; auto). apply IHpre. intros; apply H; right; auto.
Qed.
Lemma splitlines_first : forall s, s <> [] -> exists l ls rest, splitlines s = l :: ls /\ s = l ++ rest
  /\ (forall c, In c l -> is_linebreak c = false)
  /\ (rest = [] \/ exists c r, rest = c :: r /\ is_linebreak c = true).
Proof.
  induction s as [|c r IH]; intros N; [contradiction|]. cbn [splitlines].
  destruct (is_linebreak c) eqn:L.
  - eexists [], _, (c :: r). split; [reflexivity|]. split; auto. split; [intros ? []|]. right. eauto.
  - destruct r as [|d r'].
    + cbn. exists [c], [], []. repeat split; auto. intros x [<-|[]]. auto.
    + destruct IH as (l & ls & rest & E & E2 & F & G); [discriminate|]. rewrite E.
      exists (c :: l), ls, rest. rewrite E2. repeat split; auto. intros x [<-|I]; auto.
Qed.
Lemma splitlines_app : forall l rest, l <> [] -> (forall c, In c l -> is_linebreak c = false) ->
  (rest = [] \/ exists c r, rest = c :: r /\ is_linebreak c = true) ->
  exists ls, splitlines (l ++ rest) = l :: ls.
Proof.
  induction l as [|c l IH]; intros rest N F G; [contradiction|]. cbn [app splitlines].
  rewrite (F c) by (left; auto). destruct l as [|d l].
  - destruct G as [->|(x & r & -> & L)]; cbn [app splitlines]; [eauto|]. rewrite L. eauto.
  - destruct (IH rest) as (ls & E); auto; [discriminate | intros; apply F; right; auto|].
    rewrite E. eauto.
Qed.
Lemma before_space_split : forall s, exists rest, s = before_space s ++ rest /\ ~ In 32%N (before_space s)
  /\ (rest = [] \/ exists r, rest = 32%N :: r).
Proof.
  induction s as [|c r (rest & E & F & G)]; cbn.
  - exists []. auto.
  - destruct (N.eqb_spec c 32).
    + exists (c :: r). subst. cbn. split; auto. split; [intros []|]. right. eauto.
    + exists rest. cbn. rewrite <- E. split; auto. split; auto. intros [X|X]; auto.
Qed.
Lemma before_space_app : forall w rest, ~ In 32%N w -> (rest = [] \/ exists r, rest = 32%N :: r) ->
  before_space (w ++ rest) = w.
Proof.
  induction w as [|c w IH]; intros rest N G; cbn.
  - destruct G as [->|[r ->]]; auto.
  - destruct (N.eqb_spec c 32); [subst; exfalso; apply N; left; auto|]. f_equal. apply IH; auto.
    intros I. apply N. right. auto.
Qed.
Lemma lower_split : forall s a b, lower s = a ++ b -> exists a' b', s = a' ++ b' /\ lower a' = a /\ lower b' = b.
Proof.
  intros s a. revert s. induction a as [|x a IH]; intros s b E; cbn in E.
  - exists [], s. auto.
  - destruct s as [|c s]; [discriminate|]. cbn in E. injection E as E1 E2.
    destruct (IH s b E2) as (a' & b' & -> & <- & <-). exists (c :: a'), b'. cbn. rewrite E1. auto.
Qed.
Lemma linebreak_lower : forall c, is_linebreak (lower_c c) = is_linebreak c.
Proof.
  intros c. unfold lower_c. destruct (is_upper_c c) eqn:U; auto.
  unfold is_upper_c in U. apply andb_true_iff in U as [U1 U2]. apply N.leb_le in U1, U2.
  unfold is_linebreak. cbn [existsb].
  repeat match goal with |- context [N.eqb ?a ?b] => destruct (N.eqb_spec a b); [lia|] end. reflexivity.
Qed.
Lemma space_lower : forall c, lower_c c = 32%N <-> c = 32%N.
Proof.
  intros c. unfold lower_c. destruct (is_upper_c c) eqn:U; split; intros H; subst; auto; try discriminate.
  unfold is_upper_c in U. apply andb_true_iff in U as [U1 U2]. apply N.leb_le in U1, U2. lia.
Qed.

Lemma select_string : forall s, is_select_string s = true <->
  exists pre w rest, s = pre ++ w ++ rest
  /\ (forall c, In c pre -> In (lower_c c) (" '""`ufbr" ++ nl))
  /\ lower w = "select"
  /\ (rest = [] \/ exists c r, rest = c :: r /\ (c = 32%N \/ is_linebreak c = true)).
Proof.
  intros s. unfold is_select_string.
  set (chars := [32; 10; 39; 34; 96; 117; 102; 98; 114]%N).
  assert (SAME : forall c, In c chars <-> In c (" '""`ufbr" ++ nl)).
  { intros c. cbn. tauto. }
  split.
  - intros H. destruct (lstrip_split chars (lower s)) as (pre & E & F & G).
    destruct (lstrip chars (lower s)) as [|c0 r0] eqn:LS; [discriminate|].
    destruct (splitlines_first (c0 :: r0)) as (l & ls & rest & S1 & S2 & S3 & S4); [discriminate|].
    rewrite S1 in H. apply str_eqb_eq in H.
    destruct (before_space_split l) as (rl & B1 & B2 & B3). rewrite H in B1.
    rewrite S2, B1 in E. rewrite <- app_assoc in E.
    apply lower_split in E as (pre' & s2 & -> & P1 & P2).
    apply lower_split in P2 as (w & s3 & -> & W1 & W2).
    exists pre', w, s3. split; auto. split; [|split; auto].
    + intros c I. apply SAME. apply F. rewrite <- P1. apply in_map. auto.
    + destruct s3 as [|c r]; [left; auto|right]. exists c, r. split; auto. cbn in W2.
      destruct B3 as [->|[rr ->]].
      * cbn in W2. destruct S4 as [->|(x & r' & -> & L)]; [discriminate|]. injection W2 as <- _.
        right. rewrite linebreak_lower in L. auto.
      * cbn in W2. injection W2 as X _. left. apply space_lower. auto.
  - intros (pre & w & rest & -> & P & W & G). rewrite !lower_app, W.
    rewrite lstrip_app.
    2:{ intros c I. apply SAME. unfold lower in I. apply in_map_iff in I as (d & <- & I). auto. }
    change (lstrip chars ("select" ++ lower rest)) with ("select" ++ lower rest).
    assert (X : exists l ls, splitlines ("select" ++ lower rest) = l :: ls /\ before_space l = "select").
    { destruct (splitlines_first ("select" ++ lower rest)) as (l & ls & r2 & S1 & S2 & S3 & S4); [discriminate|].
      exists l, ls. split; auto.
      assert (Y : exists x, l = "select" ++ x /\ (x = [] \/ exists r, x = 32%N :: r)).
      { assert (NL : forall x y z, "select" ++ lower rest = y ++ z -> length y <= x -> x <= 6 ->
          (exists c r, z = c :: r /\ is_linebreak c = true) -> 6 <= length y \/ False).
        { intros x y z E Ly Lx (c & r & -> & L).
          do 6 (destruct y as [|? y]; [cbn in E; injection E as <- _; vm_compute in L; discriminate|]; cbn in E; injection E as _ E).
          cbn in *. left. lia. }
        assert (L6 : 6 <= length l).
        { destruct (le_lt_dec 6 (length l)); auto. destruct S4 as [->|Z].
          - rewrite app_nil_r in S2. rewrite <- S2. cbn. lia.
          - destruct (NL (length l) l r2 S2 ltac:(lia) ltac:(lia) Z); [lia|contradiction]. }
        do 6 (destruct l as [|? l]; [cbn in L6; lia|]; cbn in S2; injection S2 as <- S2).
        exists l. split; auto.
        destruct l as [|d l]; [left; auto|right].
        destruct G as [->|(c & r & -> & G)]; [cbn in S2; discriminate|].
        cbn in S2. injection S2 as <- S2.
        destruct G as [->|G]; [exists l; reflexivity|].
        rewrite <- linebreak_lower in G. rewrite S3 in G; [discriminate|]. cbn. auto 10. }
      destruct Y as (x & -> & Y). apply before_space_app; auto.
      cbn. intros I. repeat (destruct I as [I|I]; [discriminate|]). contradiction. }
    destruct X as (l & ls & -> & ->). reflexivity.
Qed.
