(** Lemmas about the query object. *)
From Verif Require Import PyStr Tokeniser Ast Parser Render Validate Api Lib SpecApi.
Local Open Scope list_scope.

(** The cached tree, if any, is the parse of the text. *)
Definition q_ok (q : query) : Prop :=
  match q_ast q with Some n => parse_sql (q_sql q) = Ok n | None => True end.

Lemma get_ast_spec : forall q, q_ok q ->
  fst (get_ast q) = parse_sql (q_sql q) /\ q_ok (snd (get_ast q))
  /\ q_sql (snd (get_ast q)) = q_sql q /\ q_validated (snd (get_ast q)) = q_validated q
  /\ q_errors (snd (get_ast q)) = q_errors q.
Proof.
  unfold q_ok, get_ast. intros q H. destruct (q_ast q) eqn:E; cbn.
  - rewrite E. auto.
  - destruct (parse_sql (q_sql q)) eqn:P; cbn; rewrite ?E, ?P; auto.
Qed.

Lemma q_format_spec : forall q, q_ok q ->
  fst (q_format q) = format_sql (q_sql q) /\ q_ok (snd (q_format q))
  /\ q_sql (snd (q_format q)) = q_sql q /\ q_validated (snd (q_format q)) = q_validated q
  /\ q_errors (snd (q_format q)) = q_errors q.
Proof.
  intros q H. pose proof (get_ast_spec q H) as (A & B & C & D & E).
  unfold q_format, format_sql. destruct (get_ast q) as [r q']. cbn in *. subst r. auto.
Qed.

Lemma q_validate_spec : forall ord q, q_ok q ->
  let r := q_validate ord q in
  q_ok (snd r) /\ q_sql (snd r) = q_sql q /\ q_validated (snd r) = true.
Proof.
  intros ord q H r. subst r. unfold q_validate.
  set (q1 := mk_query _ _ _ _).
  assert (Hq1 : q_ok q1) by exact H.
  pose proof (get_ast_spec q1 Hq1) as (A & B & C & D & E).
  destruct (get_ast q1) as [r q']. cbn in *.
  destruct (rbind r (validate_top ord)) as [es|e]; cbn; [|destruct e; cbn]; auto.
Qed.

Lemma q_is_valid_spec : forall ord q, q_ok q ->
  let r := q_is_valid ord q in
  q_ok (snd r) /\ q_sql (snd r) = q_sql q /\ q_validated (snd r) = true
  /\ (q_validated q = true ->
        fst r = Ok (match q_errors q with [] => true | _ => false end) /\ snd r = q)
  /\ (forall b, fst r = Ok b -> b = match q_errors (snd r) with [] => true | _ => false end).
Proof.
  intros ord q H r. subst r. unfold q_is_valid. destruct (q_validated q) eqn:V; cbn.
  - repeat split; auto; intros; congruence.
  - pose proof (q_validate_spec ord q H) as (A & B & C).
    destruct (q_validate ord q) as [r q']. cbn in *.
    repeat split; auto; try discriminate. intros b Hb. destruct r; cbn in *; congruence.
Qed.

Lemma run_spec : forall h q, q_ok q ->
  q_ok (snd (run h q)) /\ q_sql (snd (run h q)) = q_sql q
  /\ (q_validated q = true -> q_validated (snd (run h q)) = true
                              /\ q_errors (snd (run h q)) = q_errors q).
Proof.
  induction h as [|c h IH]; intros q H; cbn; auto.
  destruct (step c q) as [a q1] eqn:S. destruct (run h q1) as [as_ q2] eqn:R. cbn.
  assert (K : q_ok q1 /\ q_sql q1 = q_sql q
              /\ (q_validated q = true -> q_validated q1 = true /\ q_errors q1 = q_errors q)).
  { destruct c as [|ord]; cbn in S.
    - pose proof (q_format_spec q H) as (A & B & C & D & E).
      destruct (q_format q) as [r q']. injection S as <- <-. cbn in *.
      split; [auto|]. split; [congruence|]. intros; split; congruence.
    - pose proof (q_is_valid_spec ord q H) as (A & B & C & D & E).
      destruct (q_is_valid ord q) as [r q']. injection S as <- <-. cbn in *.
      split; [auto|]. split; [auto|]. intros V; apply D in V; destruct V; subst; auto. }
  destruct K as (K1 & K2 & K3). specialize (IH q1 K1). rewrite R in IH. cbn in IH.
  destruct IH as (I1 & I2 & I3). split; [auto|]. split; [congruence|].
  intros V; destruct (K3 V) as [V1 V2]; destruct (I3 V1); split; congruence.
Qed.

Lemma new_ok : forall sql, q_ok (new_query sql).
Proof. intros. exact I. Qed.

Lemma format_history : forall sql h,
  fst (step CFormat (snd (run h (new_query sql)))) = AFormat (format_sql sql).
Proof.
  intros. pose proof (run_spec h _ (new_ok sql)) as (A & B & _).
  destruct (run h (new_query sql)) as [l q]. cbn in *.
  pose proof (q_format_spec q A) as (C & _). destruct (q_format q). cbn in *. congruence.
Qed.

Lemma is_valid_stable : forall sql h ord b q1,
  q_is_valid ord (snd (run h (new_query sql))) = (Ok b, q1) ->
  forall h' ord', let q2 := snd (run h' q1) in
    fst (q_is_valid ord' q2) = Ok b /\ q_errors q2 = q_errors q1
    /\ (b = true <-> q_errors q1 = []).
Proof.
  intros sql h ord b q1 H h' ord' q2.
  pose proof (run_spec h _ (new_ok sql)) as (A & B & _).
  pose proof (q_is_valid_spec ord _ A) as (C & D & E & _ & F).
  rewrite H in *. cbn in *. specialize (F b eq_refl).
  pose proof (run_spec h' _ C) as (G & I & J). destruct (J E) as [J1 J2]. fold q2 in G, I, J1, J2.
  pose proof (q_is_valid_spec ord' _ G) as (_ & _ & _ & K & _). destruct (K J1) as [K1 K2].
  rewrite K1, J2, <- F. repeat split; auto; intros; subst; destruct (q_errors q1); congruence.
Qed.

(** After a failed first validation *)
Lemma q_validate_raise : forall ord q e, q_errors q = [] ->
  fst (q_validate ord q) = Err e -> q_errors (snd (q_validate ord q)) = [].
Proof.
  intros ord q e N H. unfold q_validate in *. set (q1 := mk_query _ _ _ _) in *.
  assert (q_errors (snd (get_ast q1)) = []).
  { unfold get_ast. destruct (q_ast q1); cbn; auto. destruct (parse_sql (q_sql q)); auto. }
  destruct (get_ast q1) as [r q']. destruct (rbind r (validate_top ord)) as [|x]; cbn in *; try discriminate.
  destruct x; cbn in *; auto; discriminate.
Qed.

Lemma is_valid_after_raise : forall sql ord e q1,
  q_is_valid ord (new_query sql) = (Err e, q1) ->
  forall h ord', fst (q_is_valid ord' (snd (run h q1))) = Ok true.
Proof.
  intros sql ord e q1 H h ord'.
  pose proof (q_is_valid_spec ord _ (new_ok sql)) as (C & D & E & _ & _). rewrite H in *. cbn in *.
  assert (N : q_errors q1 = []).
  { unfold q_is_valid in H. cbn in H.
    pose proof (q_validate_raise ord (new_query sql)) as X.
    destruct (q_validate ord (new_query sql)) as [r q']. cbn in *. injection H as H <-.
    destruct r; cbn in *; try discriminate. eapply X; eauto. }
  pose proof (run_spec h _ C) as (G & I & J). destruct (J E) as [J1 J2].
  pose proof (q_is_valid_spec ord' _ G) as (_ & _ & _ & K & _). destruct (K J1) as [K1 K2].
  rewrite K1, J2, N. auto.
Qed.
