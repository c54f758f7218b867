(** Strings, in Python's tokenizer, when the text that follows is another one. *)
From Verif Require Import PyStr Lib PyTokens PyTokenize SpecSource ProofSource ProofLex ProofLex2 ProofTokenize.
Local Open Scope str_scope.
Local Open Scope list_scope.

Lemma quote_10 : forall q, quote_c q = true -> q <> 10%N /\ q <> 13%N /\ q <> 92%N /\ q <> 35%N /\ blank_c q = false.
Proof.
  intros q H. unfold quote_c in H. cbn [existsb] in H. rewrite orb_false_r in H. apply orb_true_iff in H as [H|H]; apply N.eqb_eq in H; subst;
    repeat split; try discriminate; reflexivity.
Qed.
(** ** The lines of a text *)
Lemma cut_line_spec : forall s line rest, cut_line s = (line, rest) ->
  s = line ++ rest /\ ((has 10 line = false /\ rest = []) \/ exists l0, line = l0 ++ [10%N] /\ has 10 l0 = false).
Proof.
  induction s as [|c s IH]; intros line rest H; cbn [cut_line] in H; [injection H as <- <-; split; [reflexivity|left; auto]|].
  destruct (N.eqb_spec c 10) as [->|NE].
  - injection H as <- <-. split; auto. right. exists []. auto.
  - destruct (cut_line s) as [a b]. injection H as <- <-. destruct (IH a b eq_refl) as [-> [[A ->]|(l0 & -> & A)]]; (split; [reflexivity|]).
    + left. split; auto. unfold has in *. cbn [existsb]. rewrite A. destruct (N.eqb_spec 10 c); [congruence|reflexivity].
    + right. exists (c :: l0). split; auto. unfold has in *. cbn [existsb]. rewrite A. destruct (N.eqb_spec 10 c); [congruence|reflexivity].
Qed.
Lemma cut_line_app : forall a s, has 10 a = false -> cut_line (a ++ s) = (a ++ fst (cut_line s), snd (cut_line s)).
Proof.
  induction a as [|c a IH]; intros s H; cbn [app cut_line]; [destruct (cut_line s); reflexivity|].
  unfold has in *. cbn [existsb] in H. apply orb_false_iff in H as [H1 H2]. destruct (N.eqb_spec c 10) as [->|]; [discriminate|].
  rewrite IH by exact H2. reflexivity.
Qed.
Lemma cut_line_nl : forall l0 rest, has 10 l0 = false -> cut_line ((l0 ++ [10%N]) ++ rest) = (l0 ++ [10%N], rest).
Proof. intros. rewrite <- app_assoc, cut_line_app by assumption. reflexivity. Qed.
Lemma endswith_app : forall a b, endswith b a = true -> exists x, a = x ++ b.
Proof.
  intros a b H. unfold endswith in H. apply startswith_app in H as [r E]. exists (rev r).
  rewrite <- (rev_involutive a), E, rev_app_distr, rev_involutive. reflexivity.
Qed.
Lemma endswith_10 : forall a, endswith [10%N] a = false -> a <> [] -> exists x c, a = x ++ [c] /\ c <> 10%N.
Proof.
  intros a H NE. destruct a as [|c a _] using rev_ind; [congruence|]. exists a, c. split; auto. intros ->. unfold endswith in H.
  rewrite rev_app_distr in H. cbn in H. destruct (rev a); discriminate.
Qed.
Lemma endswith_10_true : forall a, endswith [10%N] (a ++ [10%N]) = true.
Proof. intros. unfold endswith. rewrite rev_app_distr. cbn. destruct (rev a); reflexivity. Qed.
Lemma cont_acc : forall ends x n acc s, cont_lines n ends (x ++ acc) s =
  match cont_lines n ends acc s with Some (Closed t r) => Some (Closed (x ++ t) r) | Some (Broken t r) => Some (Broken (x ++ t) r) | None => None end.
Proof.
  intros ends x. induction n as [|n IH]; intros acc s; cbn [cont_lines]; [reflexivity|]. destruct (cut_line s) as [[|c line] rest]; [reflexivity|].
  destruct (ends (c :: line)) as [[a b]|]; [rewrite app_assoc; reflexivity|]. destruct (endswith _ _ || endswith _ _); [|rewrite app_assoc; reflexivity].
  rewrite <- app_assoc. apply IH.
Qed.
Lemma cont_closed : forall q, quote_c q = true -> forall n acc s t r, cont_lines n (tail1 q) acc s = Some (Closed t r) ->
  exists m, t = acc ++ m ++ [q] /\ s = (m ++ [q]) ++ r
    /\ forall r' n', length m < n' -> cont_lines n' (tail1 q) acc ((m ++ [q]) ++ r') = Some (Closed t r').
Proof.
  intros q Q. destruct (quote_10 q Q) as (Q10 & _). induction n as [|n IH]; intros acc s t r H; [discriminate|]. cbn [cont_lines] in H.
  destruct (cut_line s) as [line rest] eqn:C. apply cut_line_spec in C as [-> C]. destruct line as [|c line]; [discriminate|].
  destruct (tail1 q (c :: line)) as [[a b]|] eqn:T.
  - injection H as <- <-. destruct (tail1_app q _ _ _ _ (le_n _) T) as ([a0 ->] & E & X). exists a0. rewrite E, <- !app_assoc. split; [reflexivity|].
    split; [reflexivity|]. intros r' n' L. destruct n' as [|n']; [lia|]. cbn [cont_lines].
    assert (NA : has 10 (a0 ++ [q]) = false).
    { destruct C as [[C _]|(l0 & C & D)].
      - rewrite E, has_app in C. apply orb_false_iff in C. tauto.
      - rewrite E in C. destruct b as [|b0 b _] using rev_ind.
        + rewrite app_nil_r in C. apply app_inj_tail in C as [_ C]. congruence.
        + rewrite app_assoc in C. apply app_inj_tail in C as [C _]. rewrite <- C, has_app in D. apply orb_false_iff in D. tauto. }
    rewrite cut_line_app by exact NA. destruct (cut_line r') as [x y] eqn:C'. apply cut_line_spec in C' as [-> _]. cbn [fst snd].
    rewrite X. destruct a0; cbn [app]; reflexivity.
  - destruct (endswith [92; 10]%N (c :: line) || endswith [92; 13; 10]%N (c :: line)) eqn:W; [|discriminate].
    destruct (IH _ _ _ _ H) as (m & -> & -> & X). exists ((c :: line) ++ m). rewrite <- !app_assoc. split; [reflexivity|]. split; [reflexivity|].
    intros r' n' L. destruct n' as [|n']; [lia|]. cbn [cont_lines].
    assert (D : exists l0, c :: line = l0 ++ [10%N] /\ has 10 l0 = false).
    { destruct C as [[C _]|C]; [|exact C]. apply orb_true_iff in W as [W|W]; apply endswith_app in W as [x E]; rewrite E, has_app in C; cbn in C; rewrite orb_true_r in C; discriminate. }
    destruct D as (l0 & D1 & D2).
    match goal with |- context [cut_line ?u] => replace u with ((l0 ++ [10%N]) ++ (m ++ [q]) ++ r') by (rewrite <- D1, <- !app_assoc; reflexivity) end.
    rewrite cut_line_nl by exact D2. rewrite <- D1. rewrite T, W. rewrite app_length in L. cbn [length] in L. rewrite X by lia. rewrite <- !app_assoc. reflexivity.
Qed.

(** ** What follows the opening quote of a string *)
Definition string_end (q : N) (s : str) : option (str * str) :=
  if startswith [q; q] s then put [q; q] (tail3 true q (skipn 2 s))
  else
    match one_line q s with
    | Some (a, b) =>
      if endswith [10%N] a
      then match cont_lines (S (length b)) (tail1 q) a b with Some (Closed t r) => Some (t, r) | _ => None end
      else Some (a, b)
    | None => None
    end.
Lemma one_line_short : forall q s b, one_line q s = Some ([q], b) -> s = q :: b.
Proof.
  intros q s b H. destruct s as [|c s]; [discriminate|]. cbn [one_line] in H. destruct (N.eqb c q); [congruence|]. destruct (N.eqb c 10); [discriminate|].
  destruct (N.eqb c 92).
  - destruct (newline s) as [[e r]|] eqn:NL; [apply newline_spec in NL as ([->| ->] & _); discriminate|]. destruct s as [|d s]; [discriminate|].
    apply put_Some in H as (y & _ & E). discriminate.
  - apply put_Some in H as (y & H & E). cbn in E. injection E as -> <-. destruct s as [|d s]; [discriminate|]. cbn [one_line] in H.
    destruct (N.eqb d c); [discriminate|]. destruct (N.eqb d 10); [discriminate|]. destruct (N.eqb d 92).
    + destruct (newline s) as [[e r]|]; [discriminate|]. destruct s; [discriminate|]. apply put_Some in H as (y & _ & E). discriminate.
    + apply put_Some in H as (y & _ & E). discriminate.
Qed.
Lemma one_line_one : forall q s a b, one_line q s = Some (a, b) -> length a = 1 -> a = [q].
Proof.
  intros q s a b H L. destruct s as [|c s]; [discriminate|]. cbn [one_line] in H. destruct (N.eqb_spec c q) as [->|]; [congruence|]. exfalso.
  destruct (N.eqb c 10); [discriminate|].
  assert (E1 : forall a b, one_line q s = Some (a, b) -> length a > 0).
  { intros x y E. destruct x; [|cbn; lia]. destruct s as [|d s]; [discriminate|]. cbn [one_line] in E. destruct (N.eqb d q); [discriminate|]. destruct (N.eqb d 10); [discriminate|].
    destruct (N.eqb d 92); [destruct (newline s) as [[? ?]|]; [discriminate|]; destruct s; [discriminate|]|]; apply put_Some in E as (? & _ & E); discriminate. }
  destruct (N.eqb c 92).
  - destruct (newline s) as [[e r]|] eqn:NL; [apply newline_spec in NL as ([->| ->] & _); injection H as <- _; discriminate|]. destruct s as [|d s]; [discriminate|].
    apply put_Some in H as (y & _ & ->). discriminate.
  - apply put_Some in H as (y & H & ->). apply E1 in H. cbn in L. lia.
Qed.
Lemma startswith2 : forall q a b b', hd_error b = hd_error b' -> a <> [] -> startswith [q; q] (a ++ b) = startswith [q; q] (a ++ b').
Proof.
  intros q a b b' H NE. destruct a as [|x [|y a]]; [congruence| |]; cbn [app startswith].
  - destruct b as [|c b], b' as [|c' b']; try discriminate; auto. cbn in H. injection H as <-. cbn. destruct b, b'; reflexivity.
  - destruct (a ++ b), (a ++ b'); reflexivity.
Qed.
Lemma string_end_app : forall q, quote_c q = true -> forall s a b, string_end q s = Some (a, b) ->
  s = a ++ b /\ (exists a0 c, a = a0 ++ [c] /\ c <> 10%N)
  /\ forall b', hd_error b = hd_error b' -> string_end q (a ++ b') = Some (a, b').
Proof.
  intros q Q s a b H. destruct (quote_10 q Q) as (Q10 & Q13 & Q92 & _). unfold string_end in H. destruct (startswith [q; q] s) eqn:SW.
  - apply put_Some in H as (y & H & ->). apply startswith_app in SW as [s0 ->]. cbn [app skipn] in H.
    destruct (tail3_app true q _ _ _ _ (le_n _) H) as ([a0 EA] & -> & X). split; [reflexivity|]. split.
    + exists (q :: q :: a0 ++ [q; q]), q. rewrite EA. cbn [app]. rewrite <- app_assoc. auto.
    + intros b' _. unfold string_end. replace (startswith [q; q] (([q; q] ++ y) ++ b')) with true.
      * cbn [app skipn]. rewrite X. reflexivity.
      * cbn. rewrite !N.eqb_refl. destruct (y ++ b'); reflexivity.
  - destruct (one_line q s) as [[x z]|] eqn:O; [|discriminate].
    destruct (one_line_app q (proj2 (N.eqb_neq _ _) Q13) (proj2 (N.eqb_neq _ _) Q10) (proj2 (N.eqb_neq _ _) Q92) _ _ _ _ (le_n _) O) as (NE & -> & X).
    destruct (endswith [10%N] x) eqn:W.
    + destruct (cont_lines (S (length z)) (tail1 q) x z) as [[t r|? ?]|] eqn:C; try discriminate. injection H as <- <-.
      destruct (cont_closed q Q _ _ _ _ _ C) as (m & -> & -> & Y). split; [rewrite <- !app_assoc; reflexivity|]. split.
      { exists (x ++ m), q. rewrite <- !app_assoc. auto. }
      intros b' HB. unfold string_end. rewrite <- app_assoc.
      assert (L : exists x0 x1 x2, x = x0 :: x1 :: x2).
      { destruct x as [|x0 [|x1 x2]]; [congruence| |eauto]. pose proof (one_line_one _ _ _ _ O eq_refl) as E. injection E as ->.
        exfalso. apply endswith_app in W as [[|? ?] W]; [cbn in W; congruence|]. injection W as _ W. destruct l; discriminate. }
      destruct L as (x0 & x1 & x2 & ->). replace (startswith [q; q] ((x0 :: x1 :: x2) ++ (m ++ [q]) ++ b')) with false.
      rewrite X, W, Y by (rewrite !app_length; cbn; lia). reflexivity.
    + injection H as <- <-. split; [reflexivity|]. split; [apply endswith_10; assumption|]. intros b' HB. unfold string_end.
      rewrite <- (startswith2 q x z b' HB NE), SW, X, W. reflexivity.
Qed.

Section Word.
Variable word : N -> bool.
Notation pseudo := (pseudo word).
Notation inline := (inline word).
Lemma opening_head : forall p q y, quote_c q = true -> mem (lower p) STR_PREFIXES = true ->
  slash (p ++ q :: y) = None /\ startswith [35%N] (p ++ q :: y) = false /\ span blank_c (p ++ q :: y) = ([], p ++ q :: y).
Proof.
  intros p q y Q M. destruct (quote_10 q Q) as (_ & _ & Q92 & Q35 & QB). destruct p as [|c p]; cbn [app].
  - cbn [slash startswith span]. rewrite QB. destruct (N.eqb_spec q 92); [congruence|]. destruct (N.eqb_spec 35 q); [congruence|]. auto.
  - apply mem_In in M. unfold lower in M. cbn [map] in M.
    assert (X : c <> 92%N /\ c <> 35%N /\ blank_c c = false).
    { assert (In (lower_c c) [114; 117; 102; 98]%N).
      { cbn in M. repeat (destruct M as [M|M]; [try discriminate; injection M as <- _; cbn; auto|]). destruct M. }
      repeat split; [intros ->|intros ->|unfold blank_c; destruct (existsb _ _) eqn:E; [|reflexivity]; cbn [existsb] in E; rewrite orb_false_r in E;
        repeat (apply orb_true_iff in E as [E|E]); apply N.eqb_eq in E; subst]; cbn in H; intuition discriminate. }
    destruct X as (X1 & X2 & X3). cbn [slash startswith span]. rewrite X3. destruct (N.eqb_spec c 92); [congruence|]. destruct (N.eqb_spec 35 c); [congruence|].
    auto.
Qed.
Lemma pseudo_opening : forall s p q y, opening s = Some (p, q, y) ->
  pseudo s = if startswith [q; q] y then FTriple p q (skipn 2 y)
             else match one_line q y with
                  | Some (a, b) => FStr p q a b
                  | None => match name word s with Some (a, b) => FTok TOther a b | None => FNone end
                  end.
Proof.
  intros s p q y O. destruct (opening_spec _ _ _ _ O) as (-> & N & Q & M). destruct (opening_head p q y Q M) as (A & B & _).
  unfold PyTokenize.pseudo. fold (slash (p ++ q :: y)). rewrite A, B, O. reflexivity.
Qed.
Lemma move_after : forall s a, move a s = after a s.
Proof. induction s as [|c s IH]; intros a; [reflexivity|]. cbn [after]. rewrite <- IH. reflexivity. Qed.
Lemma right_line : forall p x, has 10 x = false -> right p x = after p x.
Proof. intros p x H. rewrite after_line by exact H. reflexivity. Qed.
Lemma prefix_line : forall p, mem (lower p) STR_PREFIXES = true -> has 10 p = false.
Proof.
  intros p M. destruct (has 10 p) eqn:H; [|reflexivity]. exfalso. apply mem_In in M. unfold lower in M. apply has_In in H.
  assert (I : In 10%N (map lower_c p)) by (apply (in_map lower_c) in H; exact H). cbn in M.
  repeat (destruct M as [M|M]; [rewrite <- M in I; cbn in I; intuition discriminate|]). destruct M.
Qed.
Lemma one_line_has : forall q n s a b, length s <= n -> one_line q s = Some (a, b) -> endswith [10%N] a = false -> has 10 a = false.
Proof.
  intros q. induction n as [|n IH]; intros s a b L H W; (destruct s as [|c r]; [discriminate|]); [cbn in L; lia|]. cbn [one_line] in H. cbn in L.
  destruct (N.eqb c q) eqn:E.
  - injection H as <- <-. unfold has. cbn [existsb]. destruct (N.eqb_spec 10 c); [subst; discriminate|reflexivity].
  - destruct (N.eqb_spec c 10) as [->|NC]; [discriminate|].
    assert (X : forall pre y, a = pre ++ y -> y <> [] -> endswith [10%N] y = false).
    { intros pre y -> NY. destruct y as [|y0 y _] using rev_ind; [congruence|]. unfold endswith in *. rewrite app_assoc, rev_app_distr in W. rewrite rev_app_distr. cbn in *. 
      destruct (rev (pre ++ y)), (rev y); exact W. }
    destruct (N.eqb c 92).
    + destruct (newline r) as [[e r']|] eqn:NL.
      * exfalso. injection H as <- <-. apply newline_spec in NL as ([->| ->] & _); discriminate.
      * destruct r as [|d r]; [discriminate|]. apply put_Some in H as (y & H & ->). cbn in L.
        assert (NY : y <> []) by (intros ->; destruct r as [|r0 r]; [discriminate|]; cbn [one_line] in H; destruct (N.eqb r0 q); [discriminate|]; destruct (N.eqb r0 10); [discriminate|];
          destruct (N.eqb r0 92); [destruct (newline r) as [[? ?]|]; [discriminate|]; destruct r; [discriminate|]|]; apply put_Some in H as (? & _ & H); discriminate).
        unfold has. cbn [existsb app]. change (existsb (N.eqb 10) y) with (has 10 y). rewrite (IH r y b); [|lia|exact H|apply (X [c; d]); auto].
        destruct (N.eqb_spec 10 c); [congruence|]. destruct (N.eqb_spec 10 d); [subst; discriminate|reflexivity].
    + apply put_Some in H as (y & H & ->).
      assert (NY : y <> []) by (intros ->; destruct r as [|r0 r]; [discriminate|]; cbn [one_line] in H; destruct (N.eqb r0 q); [discriminate|]; destruct (N.eqb r0 10); [discriminate|];
          destruct (N.eqb r0 92); [destruct (newline r) as [[? ?]|]; [discriminate|]; destruct r; [discriminate|]|]; apply put_Some in H as (? & _ & H); discriminate).
      unfold has. cbn [existsb app]. change (existsb (N.eqb 10) y) with (has 10 y). rewrite (IH r y b); [|lia|exact H|apply (X [c]); auto].
      destruct (N.eqb_spec 10 c); [congruence|reflexivity].
Qed.
Lemma inline_string : forall l ws s p q y x z, l_need l = false -> Forall (fun c => blank_c c = true) ws -> opening s = Some (p, q, y) -> string_end q y = Some (x, z) ->
  exists e, e = after (right (l_pos l) ws) (p ++ q :: x)
    /\ inline l (ws ++ s) = More [tok TString (p ++ q :: x) (right (l_pos l) ws) e] (mk_l e (l_par l) (l_ins l) false) Inline z.
Proof.
  intros l ws s p q y x z LN W O E. pose proof (pseudo_opening _ _ _ _ O) as P. destruct (opening_spec _ _ _ _ O) as (ES & N & Q & M).
  destruct (opening_head p q y Q M) as (_ & _ & B). rewrite <- ES in B.
  assert (SP : span blank_c (ws ++ s) = (ws, s)).
  { clear -W B. induction W as [|c ws C _ IH]; cbn [app span]; [exact B|]. rewrite C, IH. reflexivity. }
  unfold PyTokenize.inline. rewrite SP. destruct s as [|s0 s1] eqn:S0; [destruct p; discriminate|]. rewrite <- S0 in *. rewrite P. unfold string_end in E.
  destruct (startswith [q; q] y) eqn:SW.
  - rewrite LN. apply put_Some in E as (v & E & ->). rewrite E. replace ((p ++ [q; q; q]) ++ v) with (p ++ q :: [q; q] ++ v) by (rewrite <- app_assoc; reflexivity).
    eexists. split; [|reflexivity]. apply move_after.
  - destruct (one_line q y) as [[a b]|] eqn:OL; [|discriminate]. destruct (endswith [10%N] a) eqn:W10.
    + unfold go_on. destruct (cont_lines (S (length b)) (tail1 q) a b) as [[t r|? ?]|] eqn:C; try discriminate. injection E as <- <-.
      replace (p ++ [q] ++ a) with ((p ++ [q]) ++ a) by (rewrite <- app_assoc; reflexivity). rewrite cont_acc, C, <- app_assoc.
      eexists. split; [|reflexivity]. apply move_after.
    + injection E as <- <-. rewrite LN. eexists. split; [|reflexivity]. cbn [app]. apply right_line. rewrite has_app. unfold has at 2. cbn [existsb]. fold (has 10 a).
      rewrite (prefix_line p M), (one_line_has q _ _ _ _ (le_n _) OL W10). destruct (quote_10 q Q) as (Q10 & _). destruct (N.eqb_spec 10 q); [congruence|reflexivity].
Qed.
(** Otherwise there is no string: an error *)
Lemma inline_no_string : forall whole fuel l ws s p q y ts, l_need l = false -> Forall (fun c => blank_c c = true) ws -> opening s = Some (p, q, y) ->
  string_end q y = None -> run word whole fuel l Inline (ws ++ s) = (ts, None) -> existsb fst ts = true.
Proof.
  intros whole fuel l ws s p q y ts LN W O E R. pose proof (pseudo_opening _ _ _ _ O) as P. destruct (opening_spec _ _ _ _ O) as (ES & N & Q & M).
  destruct (opening_head p q y Q M) as (_ & _ & B). rewrite <- ES in B.
  assert (SP : span blank_c (ws ++ s) = (ws, s)).
  { clear -W B. induction W as [|c ws C _ IH]; cbn [app span]; [exact B|]. rewrite C, IH. reflexivity. }
  assert (NE : s <> []) by (intros ->; destruct p; discriminate).
  destruct fuel as [|fuel]; [discriminate|]. cbn [run] in R. unfold step, PyTokenize.inline in R. rewrite SP in R. destruct s as [|s0 s1] eqn:S0; [congruence|].
  rewrite <- S0 in *. rewrite P in R. unfold string_end in E. destruct (startswith [q; q] y) eqn:SW.
  - rewrite LN in R. destruct (tail3 true q (skipn 2 y)) as [[? ?]|]; [discriminate E|]. discriminate.
  - destruct (one_line q y) as [[a b]|] eqn:OL.
    + destruct (endswith [10%N] a) eqn:W10; [|discriminate]. unfold go_on in R.
      replace (p ++ [q] ++ a) with ((p ++ [q]) ++ a) in R by (rewrite <- app_assoc; reflexivity). rewrite cont_acc in R.
      destruct (cont_lines (S (length b)) (tail1 q) a b) as [[t r|t r]|] eqn:C; [discriminate| |discriminate].
      destruct (run _ _ _ _ _ _) as [us e]. injection R as <- _. reflexivity.
    + destruct (name word s) as [[a b]|] eqn:NM.
      * (* the prefix alone is a name, and the quote is no token *)
        assert (X : a = p /\ b = q :: y).
        { unfold name in NM. assert (SPW : span (word_c word) s = (p, q :: y)).
          { rewrite ES. apply span_all; [|apply word_quote; exact Q]. clear -M. apply mem_In in M. unfold lower in M.
            assert (Y : forall c, In (lower_c c) [114; 117; 102; 98]%N -> word_c word c = true).
            { intros c I. unfold lower_c in I. unfold word_c. destruct (is_upper_c c); [rewrite orb_true_r; reflexivity|].
              cbn in I. repeat (destruct I as [<-|I]; [reflexivity|]). destruct I. }
            assert (Z : Forall (fun c => In c [114; 117; 102; 98]%N) (map lower_c p)).
            { cbn in M. repeat (destruct M as [<-|M]; [repeat (apply Forall_cons; [cbn; auto 6|]); apply Forall_nil|]). destruct M. }
            clear -Y Z. induction p as [|c p IH]; cbn [map] in Z; [constructor|]. inversion Z; subst. constructor; auto. }
          rewrite SPW in NM. destruct p; [discriminate|]. injection NM as <- <-. auto. }
        destruct X as [-> ->]. destruct fuel as [|fuel]; [discriminate|]. cbn [run step] in R. unfold PyTokenize.inline in R.
        destruct (quote_10 q Q) as (_ & _ & _ & _ & QB). cbn [span] in R. rewrite QB in R.
        assert (O2 : opening (q :: y) = Some ([], q, y)) by (apply (opening_of [] q y); [constructor|exact Q|reflexivity]).
        rewrite (pseudo_opening _ _ _ _ O2), SW, OL in R.
        assert (NM2 : name word (q :: y) = None) by (unfold name; cbn [span]; rewrite (word_quote word q Q); reflexivity).
        rewrite NM2 in R. destruct (run _ _ _ _ _ _) as [us e]. injection R as <- _. reflexivity.
      * destruct (ws ++ s) as [|c r] eqn:WS; [destruct ws; [cbn in WS; congruence|discriminate]|].
        destruct (run _ _ _ _ _ _) as [us e]. injection R as <- _. reflexivity.
Qed.
End Word.
