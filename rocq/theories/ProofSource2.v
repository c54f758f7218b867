(** The new file: described by the tokens written, and left as it is by a second run. *)
From Verif Require Import PyStr Lib Tokeniser Ast Parser Render Validate Api PyTokens FileHandler Grammar SpecVal SpecFile SpecRun SpecStable
  ProofFile ProofFile2 ProofRun3 ProofStable SpecSource ProofSource.
Local Open Scope str_scope.
Local Open Scope list_scope.

Section File.
  Variable ord : fields -> fields.
  Variables fmt val : bool.
  Lemma new_file : forall src ts eos st r, tokens_of_file src ts ->
    compute_tokens ord fmt val ts eos = Ok st -> compute_file_content ord fmt val ts eos = Ok r ->
    exists ts2, tokens_of_file (r_content r) ts2
      /\ map (fun t => (t_type t, t_text t)) ts2 = map (fun t => (t_type t, t_text t)) (c_tokens st).
  Proof.
    intros src ts eos st r T C H. unfold compute_file_content in H. rewrite C in H. cbn [rbind] in H. inv_bind H. injection H as <-. cbn [r_content].
    pose proof (compute_tokens_spec ord fmt val ts eos) as S. rewrite C in S. destruct S as (-> & _). cbn [c_tokens] in *.
    apply (untokenize_again src ts); auto.
    pose proof (new_tokens_place fmt val ts) as P. clear -P. induction P as [|? ? ? ? [X _]]; constructor; auto.
  Qed.
End File.
Lemma formatted_twice : forall ord val src ts eos r, tokens_of_file src ts -> (forall t, In t ts -> fragment_literal t) ->
  compute_file_content ord true val ts eos = Ok r ->
  exists ts2, tokens_of_file (r_content r) ts2
    /\ forall ord2 eos2 r2, compute_file_content ord2 true val ts2 eos2 = Ok r2 -> r_changed r2 = 0 /\ r_content r2 = r_content r.
Proof.
  intros ord val src ts eos r T L H. destruct (compute_tokens ord true val ts eos) as [st|e] eqn:C.
  2:{ unfold compute_file_content in H. rewrite C in H. discriminate. }
  destruct (new_file ord true val src ts eos st r T C H) as (ts2 & T2 & K). exists ts2. split; auto. intros ord2 eos2 r2 H2.
  assert (Z : r_changed r2 = 0).
  { destruct (compute_tokens ord2 true val ts2 eos2) as [st2|e] eqn:C2.
    2:{ unfold compute_file_content in H2. rewrite C2 in H2. discriminate. }
    destruct (change_count _ _ _ _ _ _ _ C2 H2) as [D _]. rewrite D.
    pose proof (compute_tokens_spec ord2 true val ts2 eos2) as X. rewrite C2 in X. destruct X as (-> & _).
    pose proof (compute_tokens_spec ord true val ts eos) as X. rewrite C in X. destruct X as (-> & _).
    cbn [c_tokens] in *. apply settled with (ts := ts); auto. intros t I. apply literal_stable; auto. }
  split; auto. eapply file_unchanged; eauto.
Qed.
