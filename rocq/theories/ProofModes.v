(** Runs without links: every file is analysed on its initial content.  C57, C59. *)
From Verif Require Import PyStr Lib Tokeniser Ast Parser Render Validate Api PyTokens FileHandler SpecVal SpecFile SpecRun
  ProofFile ProofFile2 ProofRun ProofRun2 SpecModes.
From Coq Require Import Permutation.
Local Open Scope str_scope.
Local Open Scope list_scope.

Section Plan.
  Variable E : env.
  Variable O : options.
  Variable c : N -> str.

  Definition canon (x : option str) : step := match x with None => Invalid | Some f => Did f c (analysed E O f c) end.
  Fixpoint plan (seen : list str) (l : list (option str)) : list (option str) :=
    match l with
    | [] => []
    | None :: r => None :: plan seen r
    | Some f :: r => if mem (abspath E f) seen then plan seen r else Some f :: plan (abspath E f :: seen) r
    end.
  Definition distinct (l : list (option str)) : Prop :=
    forall f g, In (Some f) l -> In (Some g) l -> file_id E f = file_id E g -> abspath E f = abspath E g.
  (** the same step, perhaps with other contents elsewhere *)
  Definition alike (a b : step) : Prop :=
    match a, b with
    | Invalid, Invalid => True
    | Did f _ o, Did g _ o' => f = g /\ o = o'
    | _, _ => False
    end.

  Lemma analysed_local : forall f c1 c2, c1 (file_id E f) = c2 (file_id E f) -> analysed E O f c1 = analysed E O f c2.
  Proof. intros f c1 c2 H. unfold analysed, result. rewrite H. reflexivity. Qed.
  Lemma after_other : forall f c1 o k, k <> file_id E f -> after E O f c1 o k = c1 k.
  Proof.
    intros f c1 o k H. apply N.eqb_neq in H. unfold after. destruct o as [e [x|]|r]; [| |destruct (_ && _)]; unfold upd; rewrite ?H; reflexivity.
  Qed.
  Lemma after_local : forall f c1 c2 o, c1 (file_id E f) = c2 (file_id E f) -> after E O f c1 o (file_id E f) = after E O f c2 o (file_id E f).
  Proof.
    intros f c1 c2 o H. unfold after. destruct o as [e [x|]|r]; [| |destruct (_ && _)]; unfold upd; rewrite ?N.eqb_refl; auto.
  Qed.
  Lemma plan_in : forall l seen x, In x (plan seen l) -> In x l /\ forall f, x = Some f -> mem (abspath E f) seen = false.
  Proof.
    induction l as [|[f|] l IH]; intros seen x H; cbn in H; [destruct H| |].
    - destruct (mem (abspath E f) seen) eqn:M.
      + destruct (IH _ _ H) as [A B]. split; [right; auto|auto].
      + destruct H as [<-|H]; [split; [left; auto|intros g G; injection G as <-; auto]|].
        destruct (IH _ _ H) as [A B]. split; [right; auto|]. intros g G. specialize (B g G). cbn in B. apply orb_false_iff in B. tauto.
    - destruct H as [<-|H]; [split; [left; auto|discriminate]|]. destruct (IH _ _ H) as [A B]. split; [right; auto|auto].
  Qed.
  Lemma mem_cons : forall x y s, mem x (y :: s) = str_eqb x y || mem x s.
  Proof. reflexivity. Qed.

  Lemma log_plan : forall l seen c', distinct l ->
    (forall f, In (Some f) l -> mem (abspath E f) seen = false -> c' (file_id E f) = c (file_id E f)) ->
    Forall2 alike (log E O seen c' l) (map canon (plan seen l)).
  Proof.
    induction l as [|[f|] l IH]; intros seen c' D A; cbn [log plan map]; [constructor| |].
    - assert (DL : distinct l) by (intros g h G H; apply D; right; auto).
      destruct (mem (abspath E f) seen) eqn:M.
      + apply IH; auto. intros g G. apply A. right; auto.
      + cbn [map canon]. assert (AF : c' (file_id E f) = c (file_id E f)) by (apply A; [left|]; auto).
        constructor; [split; [auto|apply analysed_local; auto]|]. apply IH; auto.
        intros g G NM. rewrite mem_cons in NM. apply orb_false_iff in NM as [NE NM]. rewrite after_other; [apply A; [right|]; auto|].
        intros K. apply str_eqb_neq in NE. apply NE. apply D; [right; auto|left; auto|auto].
    - constructor; [exact I|]. apply IH; [intros g h G H; apply D; right; auto|]. intros g G. apply A. right; auto.
  Qed.

  Definition at_id (k : N) (x : option str) : bool := match x with Some f => N.eqb (file_id E f) k | None => false end.
  Definition later (k : N) (old : str) (l : list (option str)) : str :=
    match find (at_id k) l with Some (Some f) => after E O f c (analysed E O f c) k | _ => old end.
  Lemma contents_plan : forall l seen c', distinct l ->
    (forall f, In (Some f) l -> mem (abspath E f) seen = false -> c' (file_id E f) = c (file_id E f)) ->
    forall k, contents_after E O c' (log E O seen c' l) k = later k (c' k) (plan seen l).
  Proof.
    induction l as [|[f|] l IH]; intros seen c' D A k; cbn [log plan contents_after]; [reflexivity| |].
    - assert (DL : distinct l) by (intros g h G H; apply D; right; auto).
      destruct (mem (abspath E f) seen) eqn:M.
      + apply IH; auto. intros g G. apply A. right; auto.
      + assert (AF : c' (file_id E f) = c (file_id E f)) by (apply A; [left|]; auto).
        cbn [contents_after]. rewrite (analysed_local f c' c AF). rewrite IH; auto.
        * unfold later. cbn [find at_id]. destruct (N.eqb_spec (file_id E f) k) as [<-|NK].
          -- destruct (find (at_id (file_id E f)) (plan (abspath E f :: seen) l)) as [[g|]|] eqn:FD.
             ++ exfalso. apply find_some in FD as [I K]. cbn in K. apply N.eqb_eq in K. apply plan_in in I as [I NM].
                specialize (NM g eq_refl). rewrite mem_cons in NM. apply orb_false_iff in NM as [NE _]. apply str_eqb_neq in NE. apply NE.
                apply D; [right; auto|left; auto|auto].
             ++ apply find_some in FD as [_ K]. discriminate K.
             ++ apply after_local. exact AF.
          -- rewrite after_other by auto. reflexivity.
        * intros g G NM. rewrite mem_cons in NM. apply orb_false_iff in NM as [NE NM]. rewrite after_other; [apply A; [right|]; auto|].
          intros K. apply str_eqb_neq in NE. apply NE. apply D; [right; auto|left; auto|auto].
    - rewrite IH; [reflexivity|intros g h G H; apply D; right; auto|]. intros g G. apply A. right; auto.
  Qed.

  Lemma alike_events : forall a b, Forall2 alike a b -> flat_map (events O) a = flat_map (events O) b.
  Proof.
    induction 1 as [|x y a b H _ IH]; auto. cbn [flat_map]. rewrite IH. f_equal.
    destruct x as [|f b1 o], y as [|g b2 o']; cbn in H; try tauto. destruct H as [-> ->]. reflexivity.
  Qed.
  Lemma alike_sum : forall g a b, Forall2 alike a b -> sum g a = sum g b.
  Proof.
    intros g a b H. unfold sum. f_equal. induction H as [|x y a b H _ IH]; auto. cbn [map]. rewrite IH. f_equal.
    destruct x as [|f b1 o], y as [|k b2 o']; cbn in H; try tauto. destruct H as [_ ->]. reflexivity.
  Qed.
  Lemma alike_summary : forall a b, Forall2 alike a b -> summary O a = summary O b.
  Proof.
    intros a b H. unfold summary, changed_files, changed_queries, invalid_files, invalid_queries. rewrite !(alike_sum _ a b H). reflexivity.
  Qed.

  (** a run without links *)
  Theorem run_plan : forall srcs code w, no_links E srcs -> handle_inputs E O srcs (start c) = (code, w) ->
    let l := map canon (plan [] (files E srcs)) in
    (forall k, contents w k = later k (c k) (plan [] (files E srcs)))
    /\ trace w = flat_map (events O) l ++ summary O l
    /\ code = if (f_check O && (0 <? changed_queries l)) || (f_validate O && (0 <? invalid_queries l)) then 1 else 0.
  Proof.
    intros srcs code w D H. pose proof (run_refines E O srcs c) as R. rewrite H in R. cbv zeta in R. destruct R as (RC & RT & RX).
    assert (AL : Forall2 alike (log E O [] c (files E srcs)) (map canon (plan [] (files E srcs)))) by (apply log_plan; [exact D|auto]).
    cbv zeta. split; [|split].
    - intros k. rewrite RC. apply contents_plan; [exact D|auto].
    - rewrite RT, (alike_events _ _ AL), (alike_summary _ _ AL). reflexivity.
    - rewrite RX. unfold changed_queries, invalid_queries. rewrite !(alike_sum _ _ _ AL). reflexivity.
  Qed.
End Plan.
