(** Lemmas about one Python file. *)
From Verif Require Import PyStr Lib Tokeniser Ast Parser Render Validate Api ProofApi PyTokens FileHandler
  SpecVal SpecFile.
Local Open Scope str_scope.
Local Open Scope list_scope.

(** ** The query object after format() *)
Lemma handle_query : forall s v q, handle_sql_string s = Ok (v, q) ->
  exists n, parse_sql (q_sql q) = Ok n /\ q = mk_query (q_sql q) (Some n) false [].
Proof.
  intros s v q H. unfold handle_sql_string in H. destruct (detect_quotes s) as [[p qs]|]; [|discriminate].
  set (b := strip_ends _ _) in H. clearbody b. unfold q_format, get_ast, new_query in H.
  cbn [q_ast q_sql q_validated q_errors] in H. destruct (parse_sql b) as [n|e] eqn:P; cbn in H; [|discriminate].
  destruct (transform n) as [x|]; cbn in H; [|discriminate]. injection H as <- <-. cbn. eauto.
Qed.
Lemma check_valid_eq : forall ord s v q line c, handle_sql_string s = Ok (v, q) ->
  check_valid ord line q c =
  match errors_of ord (q_sql q) with
  | Ok [] => Ok c
  | Ok es => Ok (c_count_invalid line es c)
  | Err (ParsingError m) => Ok (c_count_invalid line [m] c)
  | Err e => Err e
  end.
Proof.
  intros ord s v q line c H. apply handle_query in H as (n & P & E). unfold errors_of. rewrite P. rewrite E.
  cbn [rbind]. unfold check_valid, q_is_valid. cbn [q_validated q_validate q_ast q_sql q_errors get_ast rbind].
  destruct (validate_top ord n) as [es|e]; cbn.
  - destruct es; reflexivity.
  - destruct e; reflexivity.
Qed.

Section File.
  Variable ord : fields -> fields.
  Variables fmt val : bool.
  Notation new_tokens := (new_tokens fmt val).
  Notation new_text := (new_text fmt val).
  Notation reports := (reports ord val).
  Notation report_of := (report_of ord val).

  (** state [s] after all of [ts] *)
  Definition finish (s : cstate) (ts : list pytok) : cstate :=
    mk_c (c_tokens s ++ new_tokens ts) (c_changed s + differences ts (new_tokens ts))
      (c_invalid s + length (reports ts)) (c_locs s ++ reports ts).
  Definition one (s : cstate) (t : pytok) (r : list pytok) : cstate :=
    mk_c (c_tokens s ++ [mk_tok (t_type t) (new_text t r) (t_start t) (t_end t)])
      (c_changed s + if str_eqb (t_text t) (new_text t r) then 0 else 1)
      (c_invalid s + length (report_of t r)) (c_locs s ++ report_of t r).
  Lemma finish_cons : forall s t r, finish s (t :: r) = finish (one s t r) r.
  Proof.
    intros. unfold finish, one. cbn [SpecFile.new_tokens SpecFile.reports differences t_text c_tokens c_changed c_invalid c_locs].
    rewrite app_length, <- !app_assoc. cbn [app]. f_equal; lia.
  Qed.
  Lemma finish_nil : forall s, finish s [] = s.
  Proof. intros []. unfold finish. cbn. rewrite !app_nil_r. f_equal; lia. Qed.

  Lemma new_text_plain : forall t r, sql_string t = false -> new_text t r = t_text t.
  Proof. intros. unfold SpecFile.new_text. rewrite H. auto. Qed.
  Lemma report_plain : forall t r, sql_string t = false -> report_of t r = [].
  Proof. intros. unfold SpecFile.report_of. rewrite H. auto. Qed.
  Lemma tok_eta : forall t, mk_tok (t_type t) (t_text t) (t_start t) (t_end t) = t.
  Proof. intros []. reflexivity. Qed.
  Lemma one_keep : forall s t r, new_text t r = t_text t -> report_of t r = [] -> one s t r = c_append [t] s.
  Proof.
    intros s t r H1 H2. unfold one. rewrite H1, H2, str_eqb_refl, tok_eta, app_nil_r. unfold c_append. cbn.
    f_equal; lia.
  Qed.
  Lemma one_plain : forall s t r, sql_string t = false -> one s t r = c_append [t] s.
  Proof. intros. apply one_keep; [apply new_text_plain | apply report_plain]; auto. Qed.
  Lemma c_append_app : forall a b s, c_append (a ++ b) s = c_append b (c_append a s).
  Proof. intros. unfold c_append. cbn. rewrite app_assoc. auto. Qed.
  Lemma finish_plains : forall l s r, Forall (fun t => sql_string t = false) l ->
    finish s (l ++ r) = finish (c_append l s) r.
  Proof.
    induction l as [|t l IH]; intros s r F; cbn [app].
    - unfold c_append. rewrite app_nil_r. destruct s; reflexivity.
    - inversion F; subst. rewrite finish_cons, one_plain, IH by auto. rewrite <- c_append_app. reflexivity.
  Qed.
  Lemma marker_not_sql : forall t, is_marker t = false -> sql_string t = false.
  Proof. intros t. unfold is_marker, sql_string. destruct (t_type t); auto; discriminate. Qed.

  Lemma read_following_some : forall eos ts x f0 x' fol' ts' fl,
    read_following eos x (f0 ++ [x]) ts = Ok (Some (x', fol', ts'), fl) ->
    exists mid, x :: ts = mid ++ x' :: ts' /\ Forall (fun t => is_marker t = false) mid
      /\ is_marker x' = true /\ fol' = f0 ++ mid ++ [x'].
  Proof.
    intros eos. induction ts as [|y ts IH]; intros x f0 x' fol' ts' fl H; cbn in H.
    - destruct (t_type x) eqn:T; try (destruct eos; discriminate);
        injection H as <- <- <-; exists []; unfold is_marker; rewrite T; auto.
    - destruct (t_type x) eqn:T;
        try (injection H as <- <- <- <-; exists []; unfold is_marker; rewrite T; cbn; auto; fail).
      all: apply (IH y (f0 ++ [x])) in H as (mid & E & F & M & ->); exists (x :: mid); rewrite E;
        repeat split; auto; [constructor; auto; unfold is_marker; rewrite T; auto | cbn; rewrite <- !app_assoc; auto].
  Qed.
  Lemma read_following_none : forall eos ts x f0 fl,
    read_following eos x (f0 ++ [x]) ts = Ok (None, fl) ->
    Forall (fun t => is_marker t = false) (x :: ts) /\ fl = f0 ++ x :: ts /\ eos = None.
  Proof.
    intros eos. induction ts as [|y ts IH]; intros x f0 fl H; cbn in H.
    - destruct (t_type x) eqn:T; try discriminate; destruct eos; try discriminate; injection H as <-;
        (split; [repeat constructor; unfold is_marker; rewrite T; auto | auto]).
    - destruct (t_type x) eqn:T; try discriminate;
        apply (IH y (f0 ++ [x])) in H as (F & -> & E);
        (split; [constructor; auto; unfold is_marker; rewrite T; auto | rewrite <- app_assoc; auto]).
  Qed.
  Lemma read_following_err : forall eos ts x f0 e,
    read_following eos x (f0 ++ [x]) ts = Err e -> eos = Some e.
  Proof.
    intros eos. induction ts as [|y ts IH]; intros x f0 e H; cbn in H.
    - destruct (t_type x); try discriminate; destruct eos; congruence.
    - destruct (t_type x); try discriminate; eapply (IH y (f0 ++ [x])); eauto.
  Qed.
  Lemma find_mid : forall mid x r, Forall (fun t => is_marker t = false) mid -> is_marker x = true ->
    find is_marker (mid ++ x :: r) = Some x.
  Proof. induction mid; intros; cbn; [rewrite H0; auto|]. inversion H; subst. rewrite H3. auto. Qed.
  Lemma find_none : forall l, Forall (fun t => is_marker t = false) l -> find is_marker l = None.
  Proof. induction l; intros; cbn; auto. inversion H; subst. rewrite H2. auto. Qed.

  (** applying one rewritten string *)
  Lemma one_sql : forall s t r v q, t_type t = TString -> is_select_string (t_text t) = true ->
    handle_sql_string (t_text t) = Ok (v, q) ->
    new_text t r = v ->
    one s t r = mk_c (c_tokens s ++ [with_text t v]) (c_changed s + if str_eqb (t_text t) v then 0 else 1)
      (c_invalid s + length (report_of t r)) (c_locs s ++ report_of t r).
  Proof. intros. unfold one, with_text. rewrite H2. auto. Qed.

  (** what an exception in a file is due to *)
  Notation fails := (fails ord fmt val).
  Definition blame (eos : option exn) (ts : list pytok) (e : exn) : Prop :=
    eos = Some e \/ exists a t r, ts = a ++ t :: r /\ fails t r e.
  Definition fine (ts : list pytok) : Prop := forall a t r e, ts = a ++ t :: r -> ~ fails t r e.

  Definition good (eos : option exn) (ts : list pytok) (s : cstate) (ts0 : list pytok) (r : R (cstate * list pytok)) : Prop :=
    match r with
    | Ok (s', ts') => finish s ts0 = finish s' ts' /\ (exists mid, ts = mid ++ ts') /\ (fine ts' -> fine ts0)
    | Err e => blame eos ts0 e
    end.

  Lemma fails_sql : forall t r e, fails t r e -> sql_string t = true.
  Proof.
    intros t r e [H _|v q H _ _ _]; unfold SpecFile.handled, SpecFile.checked in H;
      destruct (sql_string t); auto; discriminate.
  Qed.
  Lemma fine_cons : forall t r, (forall e, ~ fails t r e) -> fine r -> fine (t :: r).
  Proof.
    intros t r H F a t' r' e E. destruct a as [|y a]; cbn in E; injection E as -> ->; auto. eapply F; eauto.
  Qed.
  Lemma fine_plains : forall l r, Forall (fun t => sql_string t = false) l -> fine r -> fine (l ++ r).
  Proof.
    induction l; intros r F G; cbn; auto. inversion F; subst. apply fine_cons; auto.
    intros e X. apply fails_sql in X. congruence.
  Qed.
  Lemma fine_nil : fine [].
  Proof. intros a t r e E. destruct a; discriminate. Qed.
  Lemma blame_sub : forall eos a b e, blame eos b e -> blame eos (a ++ b) e.
  Proof.
    intros eos a b e [H|(a' & t & r & -> & H)]; [left; auto|]. right. exists (a ++ a'), t, r.
    rewrite <- app_assoc. auto.
  Qed.

  Lemma decide_spec : forall t x s r y r', t_type t = TString -> is_select_string (t_text t) = true ->
    r = y :: r' -> find is_marker r = Some x ->
    match decide ord fmt val t x s with
    | Ok s' => s' = one s t r /\ forall e, ~ fails t r e
    | Err e => fails t r e
    end.
  Proof.
    intros t x s r y r' T S R F.
    assert (SQ : sql_string t = true) by (unfold sql_string; rewrite T; auto).
    assert (NT : new_text t r = if contains "nosqlformat" (t_text x) then t_text t
        else if tktype_eqb (t_type x) TComment && negb fmt
                && (negb val || contains "nosqlvalidation" (t_text x)) then t_text t
        else rewritten (t_text t)).
    { unfold SpecFile.new_text. rewrite SQ. subst r. rewrite F. reflexivity. }
    assert (RO : report_of t r = if val && negb (contains "nosqlvalidation" (t_text x)) then
       match query_errors ord (t_text t) with [] => [] | es => [(fst (t_start t), es)] end else []).
    { unfold SpecFile.report_of. rewrite SQ. subst r. rewrite F. reflexivity. }
    assert (HD : handled fmt val t r = negb (tktype_eqb (t_type x) TComment) || fmt && negb (contains "nosqlformat" (t_text x))
         || val && negb (contains "nosqlvalidation" (t_text x))).
    { unfold SpecFile.handled. rewrite SQ. subst r. rewrite F. reflexivity. }
    assert (CD : checked val t r = val && negb (contains "nosqlvalidation" (t_text x))).
    { unfold SpecFile.checked. rewrite SQ. subst r. rewrite F. reflexivity. }
    clear R F. unfold decide. change NO_SQLFORMAT_COMMENT with ("nosqlformat" : str).
    change NO_SQLVALIDATION_COMMENT with ("nosqlvalidation" : str).
    set (nf := contains "nosqlformat" (t_text x)) in *.
    set (nv := contains "nosqlvalidation" (t_text x)) in *.
    set (cm := tktype_eqb (t_type x) TComment) in *. clearbody nf nv cm.
    destruct (negb cm || fmt && negb nf || val && negb nv) eqn:C.
    2:{ split.
        2:{ intros e [X _|v q X _ _ _]; [congruence|]. rewrite CD in X. rewrite X, !orb_true_r in C. discriminate. }
        symmetry. apply one_keep.
        - rewrite NT. destruct nf; auto. destruct cm, fmt, val, nv; cbn in C; try discriminate; auto.
        - rewrite RO. destruct cm, fmt, val, nv, nf; cbn in C; try discriminate; auto. }
    destruct (handle_sql_string (t_text t)) as [[v q]|e] eqn:H; cbn [rbind].
    2:{ apply fails_format; auto. }
    assert (QE : query_errors ord (t_text t) =
      match errors_of ord (q_sql q) with Ok es => es | Err (ParsingError m) => [m] | Err _ => [] end).
    { unfold query_errors. rewrite H. auto. }
    assert (RW : rewritten (t_text t) = v) by (unfold rewritten; rewrite H; auto). rewrite RW in NT.
    set (s1 := if negb (str_eqb v (t_text t)) && negb nf then c_count_changed (c_append [with_text t v] s) else c_append [t] s).
    assert (S1 : s1 = mk_c (c_tokens s ++ [mk_tok (t_type t) (new_text t r) (t_start t) (t_end t)])
      (c_changed s + if str_eqb (t_text t) (new_text t r) then 0 else 1) (c_invalid s) (c_locs s)
      \/ (nf = false /\ cm && negb fmt && (negb val || nv) = true)).
    { destruct (cm && negb fmt && (negb val || nv)) eqn:D.
      - destruct nf; [left|right; auto]. rewrite NT, str_eqb_refl, tok_eta. subst s1. rewrite andb_false_r.
        unfold c_append. cbn. f_equal; lia.
      - left. rewrite NT. subst s1. destruct nf.
        + rewrite andb_false_r, str_eqb_refl, tok_eta. unfold c_append. cbn. f_equal; lia.
        + rewrite andb_true_r, (str_eqb_sym v). destruct (str_eqb_spec (t_text t) v); cbn.
          * rewrite <- e, tok_eta. unfold c_append. f_equal; lia.
          * unfold c_count_changed, c_append, with_text. cbn. f_equal; lia. }
    destruct S1 as [S1|[D1 D2]].
    2:{ subst nf. destruct cm, fmt, val, nv; cbn in C, D2; discriminate. }
    clearbody s1. subst s1.
    destruct (val && negb nv) eqn:NV.
    - rewrite (check_valid_eq _ _ _ _ _ _ H). unfold one. rewrite RO, QE.
      assert (NF : forall es, errors_of ord (q_sql q) = Ok es -> forall e, ~ fails t r e).
      { intros es EO e [X Y|v' q' X Y Z _]; congruence. }
      destruct (errors_of ord (q_sql q)) as [es|e] eqn:EO.
      + destruct es; cbn; (split; [|eapply NF; eauto]).
        * rewrite app_nil_r. f_equal; lia.
        * unfold c_count_invalid. cbn. f_equal; lia.
      + destruct e; try (eapply fails_validate; eauto; intros; discriminate).
        cbn. split.
        * unfold c_count_invalid. cbn. f_equal; lia.
        * intros e [X Y|v' q' X Y Z W]; [congruence|]. rewrite H in Y. injection Y as <- <-. rewrite EO in Z.
          injection Z as <-. eapply W; eauto.
    - unfold one. rewrite RO. cbn. split.
      + rewrite app_nil_r. f_equal; lia.
      + intros e [X Y|v' q' X Y Z W]; congruence.
  Qed.

  Lemma handle_token_spec : forall fuel eos t ts s, length ts < fuel -> t_type t = TString ->
    good eos ts s (t :: ts) (handle_string_token ord fmt val fuel eos t ts s).
  Proof.
    induction fuel as [|fuel IH]; intros eos t ts s L T; [lia|]. cbn [handle_string_token].
    destruct (is_select_string (t_text t)) eqn:S; cbn [negb].
    2:{ assert (NS : sql_string t = false) by (unfold sql_string; rewrite T; auto).
        cbn. split; [|split; [exists []; auto|]]. rewrite finish_cons, one_plain; auto.
        apply fine_cons. intros e X. apply fails_sql in X. congruence. }
    assert (SQ : sql_string t = true) by (unfold sql_string; rewrite T; auto).
    destruct ts as [|x ts]; cbn [next_tok].
    - destruct eos as [e|]; cbn [rbind]; [left; auto|].
      assert (HD : handled fmt val t [] = true) by (unfold SpecFile.handled; rewrite SQ; auto).
      assert (CD : checked val t [] = true) by (unfold SpecFile.checked; rewrite SQ; auto).
      assert (B : forall e, fails t [] e -> blame None [t] e).
      { intros e X. right. exists [], t, []. auto. }
      destruct (handle_sql_string (t_text t)) as [[v q]|e] eqn:H; cbn [rbind].
      2:{ apply B. apply fails_format; auto. }
      rewrite (check_valid_eq _ _ _ _ _ _ H).
      assert (NT : new_text t [] = v).
      { unfold SpecFile.new_text. rewrite SQ. unfold rewritten. rewrite H. auto. }
      assert (RO : report_of t [] = match query_errors ord (t_text t) with [] => [] | es => [(fst (t_start t), es)] end).
      { unfold SpecFile.report_of. rewrite SQ. reflexivity. }
      assert (QE : query_errors ord (t_text t) =
        match errors_of ord (q_sql q) with Ok es => es | Err (ParsingError m) => [m] | Err _ => [] end).
      { unfold query_errors. rewrite H. auto. }
      rewrite QE in RO.
      assert (G : forall s', s' = one s t [] -> (forall e, ~ fails t [] e) -> good None [] s [t] (Ok (s', []))).
      { intros s' -> X. cbn. rewrite finish_cons. split; auto. split; [exists []; auto|].
        intros Y. apply fine_cons; auto. }
      assert (S1 : (if negb (str_eqb v (t_text t)) then c_count_changed (c_append [with_text t v] s) else c_append [with_text t v] s)
        = mk_c (c_tokens s ++ [mk_tok (t_type t) v (t_start t) (t_end t)])
          (c_changed s + if str_eqb (t_text t) v then 0 else 1) (c_invalid s) (c_locs s)).
      { rewrite (str_eqb_sym v). destruct (str_eqb (t_text t) v); cbn;
          unfold c_count_changed, c_append, with_text; cbn; f_equal; lia. }
      rewrite S1. clear S1.
      destruct (errors_of ord (q_sql q)) as [es|e] eqn:EO.
      + assert (NF : forall e, ~ fails t [] e) by (intros e [X Y|v' q' X Y Z _]; congruence).
        destruct es; cbn [rbind]; (apply G; [|exact NF]); unfold one; rewrite NT, RO; cbn; [rewrite app_nil_r|]; unfold c_count_invalid; cbn; f_equal; lia.
      + destruct e; try (apply B; eapply fails_validate; eauto; intros; discriminate).
        cbn [rbind]. apply G; [unfold one; rewrite NT, RO; cbn; unfold c_count_invalid; cbn; f_equal; lia|].
        intros e [X Y|v' q' X Y Z W]; [congruence|]. rewrite H in Y. injection Y as <- <-. rewrite EO in Z.
        injection Z as <-. eapply W; eauto.
    - cbn [rbind].
      destruct (read_following eos x [x] ts) as [[[[[x' fol'] ts']|] fl]|e] eqn:RF; cbn [rbind].
      + apply (read_following_some eos ts x []) in RF as (mid & E & F & M & ->). cbn [app].
        pose proof (decide_spec t x' s (x :: ts) x ts T S eq_refl) as D.
        rewrite E in D. specialize (D (find_mid _ _ _ F M)). rewrite <- E in D.
        destruct (decide ord fmt val t x' s) as [s1|e]; cbn [rbind].
        2:{ right. exists [], t, (x :: ts). auto. }
        destruct D as [-> NF].
        assert (FM : Forall (fun t => sql_string t = false) mid).
        { eapply Forall_impl; [|exact F]. intros; apply marker_not_sql; auto. }
        destruct (tktype_eqb (t_type x') TString) eqn:TX.
        * rewrite removelast_last.
          assert (TX' : t_type x' = TString) by (destruct (t_type x'); auto; discriminate).
          assert (L' : length ts' < fuel).
          { apply (f_equal (@length _)) in E. rewrite app_length in E. cbn in E, L. lia. }
          pose proof (IH eos x' ts' (c_append mid (one s t (x :: ts))) L' TX') as G.
          destruct (handle_string_token ord fmt val fuel eos x' ts' (c_append mid (one s t (x :: ts)))) as [[s2 ts2]|e]; cbn in G |- *.
          -- destruct G as [G [[m2 ->] G3]]. split; [|split].
             ++ rewrite <- G. rewrite finish_cons. rewrite E at 2. rewrite finish_plains; auto.
             ++ rewrite E. exists (mid ++ x' :: m2). rewrite <- app_assoc. auto.
             ++ intros Y. apply fine_cons; auto. rewrite E. apply fine_plains; auto.
          -- rewrite E. apply (blame_sub _ (t :: mid)). auto.
        * assert (NX : sql_string x' = false).
          { unfold sql_string. destruct (t_type x'); auto; discriminate. }
          assert (E' : x :: ts = (mid ++ [x']) ++ ts') by (rewrite <- app_assoc; auto).
          assert (FM' : Forall (fun t => sql_string t = false) (mid ++ [x'])).
          { apply Forall_app. split; auto. }
          cbn. split; [|split].
          -- rewrite finish_cons. rewrite E' at 2. rewrite finish_plains; auto.
          -- rewrite E'. exists (mid ++ [x']). auto.
          -- intros Y. apply fine_cons; auto. rewrite E'. apply fine_plains; auto.
      + apply (read_following_none eos ts x []) in RF as (F & -> & _).
        assert (FM : Forall (fun t => sql_string t = false) (x :: ts)).
        { eapply Forall_impl; [|exact F]. intros; apply marker_not_sql; auto. }
        cbn. split; [|split].
        2:{ exists (x :: ts). rewrite app_nil_r. auto. }
        * rewrite finish_cons. rewrite one_keep.
          -- rewrite <- (app_nil_r (x :: ts)) at 1. rewrite finish_plains by auto.
             rewrite <- c_append_app. reflexivity.
          -- unfold SpecFile.new_text. rewrite SQ, find_none by auto. auto.
          -- unfold SpecFile.report_of. rewrite SQ, find_none by auto. auto.
        * intros Y. apply fine_cons.
          -- intros e [X _|v q X _ _ _]; unfold SpecFile.handled, SpecFile.checked in X;
               rewrite SQ, find_none in X by auto; discriminate.
          -- rewrite <- (app_nil_r (x :: ts)). apply fine_plains; auto. 
      + apply (read_following_err eos ts x []) in RF. left. auto.
  Qed.

  Lemma file_loop_spec : forall fuel eos ts s, length ts < fuel ->
    match file_loop ord fmt val fuel eos ts s with
    | Ok s' => s' = finish s ts /\ eos = None /\ fine ts
    | Err e => blame eos ts e
    end.
  Proof.
    induction fuel as [|fuel IH]; intros eos ts s L; [lia|]. cbn [file_loop].
    destruct ts as [|t r].
    - destruct eos; [left; auto|]. rewrite finish_nil. split; auto. split; auto. apply fine_nil.
    - cbn in L. destruct (tktype_eqb (t_type t) TString) eqn:T.
      + assert (T' : t_type t = TString) by (destruct (t_type t); auto; discriminate).
        assert (L' : length r < fuel) by lia.
        pose proof (handle_token_spec fuel eos t r s L' T') as G.
        destruct (handle_string_token ord fmt val fuel eos t r s) as [[s2 r2]|e]; cbn in G |- *; auto.
        destruct G as [-> [[m ->] G]]. rewrite app_length in L'.
        specialize (IH eos r2 s2 ltac:(lia)).
        destruct (file_loop ord fmt val fuel eos r2 s2).
        * destruct IH as (-> & -> & F). auto.
        * apply (blame_sub _ (t :: m)). auto.
      + specialize (IH eos r (c_append [t] s) ltac:(lia)).
        assert (NX : sql_string t = false).
        { unfold sql_string. destruct (t_type t); auto; discriminate. }
        destruct (file_loop ord fmt val fuel eos r (c_append [t] s)).
        * destruct IH as (-> & -> & F). rewrite finish_cons, one_plain; auto. split; auto. split; auto.
          apply (fine_plains [t]); auto.
        * apply (blame_sub _ [t]). auto.
  Qed.

  Lemma compute_tokens_spec : forall ts eos,
    match compute_tokens ord fmt val ts eos with
    | Ok s => s = mk_c (new_tokens ts) (differences ts (new_tokens ts)) (length (reports ts)) (reports ts)
              /\ eos = None /\ fine ts
    | Err e => blame eos ts e
    end.
  Proof. intros. unfold compute_tokens. apply (file_loop_spec (S (length ts)) eos ts cstate0). lia. Qed.
End File.
