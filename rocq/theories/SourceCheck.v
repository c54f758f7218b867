(** A check for concrete files that their tokens are as [tokens_of_file] says. *)
From Verif Require Import PyStr Lib PyTokens SpecSource.
Local Open Scope str_scope.
Local Open Scope list_scope.

Definition pos_eqb (a b : Z * Z) : bool := ((fst a =? fst b) && (snd a =? snd b))%Z.
(** the text up to the place [p] *)
Fixpoint upto (a p : Z * Z) (s : str) : option (str * str) :=
  if pos_eqb a p then Some ([], s)
  else match s with
       | [] => None
       | c :: r => match upto (after a [c]) p r with Some (g, r) => Some (c :: g, r) | None => None end
       end.
Fixpoint is_blanks (s : str) : bool := match s with [] => true | c :: r => N.eqb c 32 && is_blanks r end.
Fixpoint is_within (s : str) : bool :=
  match s with
  | a :: b :: r => if N.eqb a 92 && N.eqb b 10 then is_within r else is_blanks s
  | _ => is_blanks s
  end.
Fixpoint strip_prefix (p s : str) : option str :=
  match p, s with
  | [], _ => Some s
  | a :: p, b :: s => if N.eqb a b then strip_prefix p s else None
  | _, _ => None
  end.
Definition ends_lineb (t : pytok) : bool := match t_type t with TNewline | TNl => true | _ => false end.
Definition gapb (ins : list str) (p : place) (t : pytok) (g : str) : bool :=
  match p with
  | Within => is_within g
  | First => if ends_lineb t then is_blanks g
             else match strip_prefix (hd [] ins) g with Some r => is_blanks r | None => is_blanks g && (length g <? length (hd [] ins)) end
  | Dedented => negb (ends_lineb t) && match strip_prefix (hd [] ins) g with Some r => is_blanks r | None => false end
  end.
Fixpoint describesb (ins : list str) (p : place) (a : Z * Z) (src : str) (ts : list pytok) : bool :=
  match ts with
  | [] => match src with [] => true | _ => false end
  | t :: r =>
    match t_type t with
    | TEnd => match src with [] => true | _ => false end
    | TIndent => match p with First => negb (has 10 (t_text t)) && describesb (t_text t :: ins) First a src r | _ => false end
    | TDedent =>
      match ins, p with
      | _ :: ins, First | _ :: ins, Dedented =>
        (fst (t_end t) =? fst a)%Z && match ins with [] => (snd (t_end t) =? 0)%Z | _ => true end && describesb ins Dedented a src r
      | _, _ => false
      end
    | _ =>
      match upto a (t_start t) src with
      | None => false
      | Some (g, src) =>
        gapb ins p t g &&
        match strip_prefix (t_text t) src with
        | None => false
        | Some src =>
          if ends_lineb t then (fst (t_end t) =? fst (t_start t))%Z && describesb ins First (fst (t_start t) + 1, 0)%Z src r
          else pos_eqb (t_end t) (after (t_start t) (t_text t)) && describesb ins Within (t_end t) src r
        end
      end
    end
  end.

Lemma pos_eqb_eq : forall a b, pos_eqb a b = true -> a = b.
Proof. intros [a b] [c d] H. apply andb_true_iff in H as [A B]. apply Z.eqb_eq in A, B. cbn in *. congruence. Qed.
Lemma upto_ok : forall s a p g r, upto a p s = Some (g, r) -> s = g ++ r /\ p = after a g.
Proof.
  induction s as [|c s IH]; intros a p g r H; cbn [upto] in H.
  - destruct (pos_eqb a p) eqn:E; [|discriminate]. injection H as <- <-. apply pos_eqb_eq in E. auto.
  - destruct (pos_eqb a p) eqn:E; [injection H as <- <-; apply pos_eqb_eq in E; auto|].
    destruct (upto (after a [c]) p s) as [[g' r']|] eqn:U; [|discriminate]. injection H as <- <-. apply IH in U as [-> ->]. split; reflexivity.
Qed.
Lemma is_blanks_ok : forall s, is_blanks s = true -> s = blanks (length s).
Proof.
  induction s as [|c s IH]; intros H; [reflexivity|]. apply andb_true_iff in H as [A B]. apply N.eqb_eq in A as ->. cbn. f_equal. auto.
Qed.
Lemma is_within_ok : forall n s, length s <= n -> is_within s = true -> exists k j, s = continued k ++ blanks j.
Proof.
  induction n as [|n IH]; intros s L H.
  - destruct s; [|cbn in L; lia]. exists 0, 0. reflexivity.
  - destruct s as [|a [|b s]]; [exists 0, 0; reflexivity|exists 0, 1; apply is_blanks_ok in H; exact H|].
    cbn [is_within] in H. destruct (N.eqb a 92 && N.eqb b 10) eqn:E.
    + apply andb_true_iff in E as [A B]. apply N.eqb_eq in A as ->. apply N.eqb_eq in B as ->.
      apply IH in H as (k & j & ->); [|cbn in L; lia]. exists (S k), j. reflexivity.
    + apply is_blanks_ok in H. exists 0, (length (a :: b :: s)). exact H.
Qed.
Lemma strip_prefix_ok : forall p s r, strip_prefix p s = Some r -> s = p ++ r.
Proof.
  induction p as [|a p IH]; intros s r H; [injection H as <-; reflexivity|]. destruct s as [|b s]; [discriminate|]. cbn in H.
  destruct (N.eqb a b) eqn:E; [|discriminate]. apply N.eqb_eq in E as ->. cbn. f_equal. auto.
Qed.
Lemma ends_lineb_ok : forall t, if ends_lineb t then ends_line t else ~ ends_line t.
Proof. intros t. unfold ends_lineb, ends_line. destruct (t_type t); try (intros [X|X]; discriminate X); auto. Qed.
Lemma gapb_ok : forall ins p t g, gapb ins p t g = true -> gap ins p t g.
Proof.
  intros ins p t g H. unfold gapb in H. pose proof (ends_lineb_ok t) as E. destruct p.
  - apply (is_within_ok (length g)) in H as (k & j & ->); [|lia]. apply gap_within.
  - destruct (ends_lineb t).
    + apply is_blanks_ok in H as ->. apply gap_empty_line. exact E.
    + destruct (strip_prefix (hd [] ins) g) eqn:S.
      * apply strip_prefix_ok in S as ->. apply is_blanks_ok in H as ->. apply gap_indented; [discriminate|exact E].
      * apply andb_true_iff in H as [A B]. apply Nat.ltb_lt in B. apply is_blanks_ok in A. rewrite A. apply gap_less; auto.
  - destruct (ends_lineb t); [discriminate|]. destruct (strip_prefix (hd [] ins) g) eqn:S; [|discriminate].
    apply strip_prefix_ok in S as ->. apply is_blanks_ok in H as ->. apply gap_indented; [discriminate|exact E].
Qed.
Lemma describesb_ok : forall ts ins p a src, describesb ins p a src ts = true -> describes gap ins p a src ts.
Proof.
  induction ts as [|t ts IH]; intros ins p a src H; cbn [describesb] in H.
  - destruct src; [apply D_nil|discriminate].
  - pose proof (ends_lineb_ok t) as EL.
    assert (Main : match upto a (t_start t) src with
      | None => false
      | Some (g, src) =>
        gapb ins p t g &&
        match strip_prefix (t_text t) src with
        | None => false
        | Some src =>
          if ends_lineb t then (fst (t_end t) =? fst (t_start t))%Z && describesb ins First (fst (t_start t) + 1, 0)%Z src ts
          else pos_eqb (t_end t) (after (t_start t) (t_text t)) && describesb ins Within (t_end t) src ts
        end end = true -> (ends_lineb t = true \/ t_type t = TString \/ t_type t = TComment \/ t_type t = TOther) -> describes gap ins p a src (t :: ts)).
    { intros M T. destruct (upto a (t_start t) src) as [[g s1]|] eqn:U; [|discriminate]. apply upto_ok in U as [-> U].
      apply andb_true_iff in M as [G M]. apply gapb_ok in G. destruct (strip_prefix (t_text t) s1) as [s2|] eqn:S; [|discriminate].
      apply strip_prefix_ok in S as ->. destruct (ends_lineb t); apply andb_true_iff in M as [A M].
      - apply Z.eqb_eq in A. apply D_line; auto.
      - apply pos_eqb_eq in A. apply D_token; auto. destruct T as [T|T]; [discriminate|exact T]. }
    unfold ends_lineb in Main at 2. destruct (t_type t) eqn:T; try (apply Main; [exact H|auto]).
    + destruct src; [apply D_end; auto|discriminate].
    + destruct p; try discriminate. apply andb_true_iff in H as [A B]. apply negb_true_iff in A. apply D_indent; auto.
    + destruct ins as [|i ins]; [discriminate|]. destruct p; try discriminate;
        apply andb_true_iff in H as [H D]; apply andb_true_iff in H as [A B]; apply Z.eqb_eq in A; apply D_dedent; auto; try discriminate;
        intros ->; apply Z.eqb_eq in B; exact B.
Qed.
Definition fileb (src : str) (ts : list pytok) : bool := describesb [] Within (1, 0)%Z src ts.
Lemma fileb_ok : forall src ts, fileb src ts = true -> tokens_of_file src ts.
Proof. intros. apply describesb_ok. exact H. Qed.
