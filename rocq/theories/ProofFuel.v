(** Nothing in the model of the API runs out of fuel. *)
From Verif Require Import PyStr PyFloat Lib Tokeniser Ast AstLib Parser Render RenderEq Validate Api ProofTerm.
Local Open Scope str_scope.
Local Open Scope list_scope.

Definition nf {A} (r : R A) : Prop := r <> Err OutOfFuel.
Lemma nf_ok : forall A (x : A), nf (Ok x).
Proof. discriminate. Qed.
Lemma nf_err : forall A e, e <> OutOfFuel -> nf (@Err A e).
Proof. intros A e H E. congruence. Qed.
Lemma nf_bind : forall A B (r : R A) (f : A -> R B), nf r -> (forall x, nf (f x)) -> nf (rbind r f).
Proof. intros A B [x|e] f H K; cbn; [auto|]. intros E. apply H. congruence. Qed.
Lemma nf_rmap : forall A B (f : A -> R B) l, (forall x, In x l -> nf (f x)) -> nf (rmap f l).
Proof.
  intros A B f l. induction l as [|x l IH]; intros H; [apply nf_ok|]. cbn. apply nf_bind; [apply H; left; auto|].
  intros y. apply nf_bind; [apply IH; intros; apply H; right; auto|]. intros. apply nf_ok.
Qed.

(** ** The tokeniser raises only exceptions of Python *)
Definition sok (s : stream) : Prop := eok (snd s).
Lemma sapp_ok : forall a b, sok a -> sok b -> sok (sapp a b).
Proof. intros [a [e|]] [b f]; unfold sok, sapp; cbn; auto. Qed.
Lemma nil_ok : forall l, sok (l, None).
Proof. intros l E. discriminate. Qed.
Lemma string_parts_ok : forall rec q l b, (forall s, sok (rec s)) -> sok (string_parts rec q b l).
Proof.
  intros rec q l. induction l as [|e l IH]; intros b H; cbn [string_parts]; [apply nil_ok|].
  destruct (str_eqb e [q]); [|destruct b]; apply sapp_ok; auto using nil_ok.
Qed.
Lemma flat_stream_ok : forall rec l, (forall s, sok (rec s)) -> sok (flat_stream rec l).
Proof. intros rec l. induction l as [|e l IH]; intros H; cbn [flat_stream]; [apply nil_ok|apply sapp_ok; auto]. Qed.
Lemma split_tokens_ok : forall n s, sok (split_tokens n s).
Proof.
  induction n as [|n IH]; intros s; cbn [split_tokens]; [discriminate|].
  destruct (find is_quote s); [apply string_parts_ok; auto|].
  destruct (find _ _); [apply flat_stream_ok; auto|].
  destruct (find _ _); [|apply nil_ok]. destruct (_ && _); [apply nil_ok|apply flat_stream_ok; auto].
Qed.
Lemma merge_ok : forall n goals l eos, length l < n -> eok eos -> sok (merge_stream goals l eos).
Proof.
  induction n as [|n IH]; intros goals l eos L E; [lia|]. destruct l as [|e r]; [exact E|]. cbn [merge_stream length] in *.
  destruct (filter _ goals); [apply sapp_ok; [apply nil_ok|apply IH; auto; lia]|].
  destruct r as [|m r']; [destruct eos; [exact E|apply nil_ok]|]. cbn [length] in L.
  destruct m; [apply sapp_ok; [apply nil_ok|apply IH; auto; lia]|].
  destruct (filter _ _) as [|g [|]]; [apply sapp_ok; [apply nil_ok|apply IH; auto; lia]..|discriminate].
Qed.
Lemma tokens_ok : forall s, eok (snd (to_tokens s)).
Proof.
  intros s. unfold to_tokens, raw_tokens. assert (H := split_tokens_ok (S (length s)) s).
  destruct (split_tokens (S (length s)) s) as [l eos]. eapply merge_ok; [apply Nat.lt_succ_diag_r|exact H].
Qed.
Lemma parse_sql_nf : forall s, nf (parse_sql s).
Proof.
  intros s. unfold parse_sql. assert (E := tokens_ok s). destruct (to_tokens s) as [ts eos]. cbn [snd] in E.
  apply (stmt_fuel (2 * length ts + 2) eos ts E). lia.
Qed.

(** ** Printing *)
Ltac nfs H := repeat first
  [ apply nf_ok | apply nf_err; discriminate
  | match goal with
    | |- nf (rbind _ _) => apply nf_bind; [|intros]
    | |- nf (rmap _ _) => apply nf_rmap; intros
    | |- nf (match ?x with _ => _ end) => destruct x
    end
  | solve [apply H; cbn; rewrite ?in_app_iff; cbn; eauto 15 using in_map]
  | progress cbn [rbind] ].
Lemma repr_nf : forall n, nf (py_repr n).
Proof.
  induction n as [n IH] using node_ind'.
  assert (L : forall l, (forall c, In c l -> In c (children n)) -> nf (l <- rmap py_repr l ;; Ok (join ", " l))).
  { intros l H. apply nf_bind; [apply nf_rmap; intros; apply IH; auto|intros; apply nf_ok]. }
  destruct n; cbn [py_repr]; nfs IH.
Qed.
Lemma order_text_nf : forall b l, nf (order_text b l).
Proof. intros b [|x [|y l]]; cbn; [apply nf_err; discriminate|apply nf_ok..]. Qed.
Lemma select_all_nf : forall v k l, nf (select_all_text v k l).
Proof. intros v k [|x [|y l]]; cbn; [apply nf_err; discriminate|apply nf_ok..]. Qed.
Lemma in_app_l : forall A (x : A) a b, In x a -> In x (a ++ b).
Proof. intros. apply in_or_app. auto. Qed.
Lemma in_app_r : forall A (x : A) a b, In x b -> In x (a ++ b).
Proof. intros. apply in_or_app. auto. Qed.
Ltac isin := cbn [In olist ollist]; first [assumption | apply in_map; assumption
  | left; reflexivity | right; isin | apply in_app_l; isin | apply in_app_r; isin ].
Lemma render_nf : forall n m, nf (render m n).
Proof.
  induction n as [n IH] using node_ind'.
  assert (H : forall c m, In c (children n) -> nf (render m c)) by auto. clear IH.
  destruct n; intros m; render_eq; repeat lazymatch goal with
    | |- nf (Ok _) => apply nf_ok
    | |- nf (Err _) => apply nf_err; discriminate
    | |- nf (let _ := _ in _) => cbv zeta
    | |- nf (py_repr _) => apply repr_nf
    | |- nf (order_text _ _) => apply order_text_nf
    | |- nf (select_all_text _ _ _) => apply select_all_nf
    | |- nf (rbind _ _) => apply nf_bind; [|intros]
    | |- nf (rmap _ _) => apply nf_rmap; intros
    | |- nf (render _ _) => apply H; unfold children; isin
    | |- nf (match ?x with _ => _ end) => destruct x
    end.
Qed.
Lemma format_sql_nf : forall s, nf (format_sql s).
Proof. intros. unfold format_sql. apply nf_bind; [apply parse_sql_nf|intros; apply render_nf]. Qed.
