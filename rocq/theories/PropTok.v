(** C01-C06: the tokeniser. *)
From Verif Require Import PyStr Tokeniser Validate Api SpecTok ProofTok3.
Local Open Scope str_scope.
Local Open Scope list_scope.

(** C01.  The tokens put together are the text without some of its blanks.  Backslashes before
    ordinary characters are allowed. *)
Theorem C01_tokens_lossless : forall s, tame s ->
  exists ts, to_tokens s = (ts, None) /\ drops_blanks s (concat ts).
Proof. exact tokens_lossless. Qed.
Print Assumptions C01_tokens_lossless.
(** Outside literals all blanks go, and nothing else. *)
Theorem C01_tokens_exact : forall s, tame s -> quote_free s ->
  concat (fst (to_tokens s)) = filter (fun c => negb (N.eqb c 32 || N.eqb c 10 || N.eqb c 9)) s.
Proof. exact tokens_exact. Qed.
Print Assumptions C01_tokens_exact.
Example C01_example :
  to_tokens "select a,  'x\d  y' from t" = (["select"; "a"; ","; "'"; "x\d  y"; "'"; "from"; "t"], None)
  /\ to_tokens "f(a)<=3.5" = (["f"; "("; "a"; ")"; "<="; "3.5"], None).
Proof. vm_compute. auto. Qed.
Example C01_example_tame : tame "select a,  'x\d  y' from t".
Proof.
  intros a b E. assert (H : a = "select a,  'x" /\ b = "d  y' from t").
  { repeat (destruct a as [|? a]; [cbn in E; try discriminate E; injection E as <-; auto|
      cbn in E; injection E as <- E]). cbn in E. destruct a; discriminate. }
  destruct H as [_ ->]. exists 100%N, "  y' from t". split; auto.
  cbn. unfold blank, separator. cbn. repeat split; intuition discriminate.
Qed.
(** Without the proviso on backslashes a character can be invented. *)
Theorem C01_trailing_backslash_refuted : exists s ts, to_tokens s = (ts, None) /\ length s < length (concat ts).
Proof. exists "select'a\", ["select"; "'"; "a\'"]. split; [vm_compute; reflexivity|cbn; lia]. Qed.
Print Assumptions C01_trailing_backslash_refuted.

(** C02.  The same words in another layout: same formatted text, same verdict, same errors. *)
Theorem C02_layout_does_not_matter : forall ws a b, ws <> [] ->
  Forall (fun w => quote_free w /\ tame w) ws -> layout ws a -> layout ws b ->
  format_sql a = format_sql b
  /\ (forall ord, fst (q_is_valid ord (new_query a)) = fst (q_is_valid ord (new_query b))
       /\ q_errors (snd (q_is_valid ord (new_query a))) = q_errors (snd (q_is_valid ord (new_query b)))).
Proof. exact layout_free. Qed.
Print Assumptions C02_layout_does_not_matter.
(** The same around literals, whose own text is left alone. *)
Theorem C02_layout_around_literals : forall m m', well_quoted m -> well_quoted m' ->
  tame (flat m) -> tame (flat m') -> snd m <> [] -> same_but_layout m m' ->
  format_sql (flat m) = format_sql (flat m')
  /\ (forall ord, fst (q_is_valid ord (new_query (flat m))) = fst (q_is_valid ord (new_query (flat m')))
       /\ q_errors (snd (q_is_valid ord (new_query (flat m)))) = q_errors (snd (q_is_valid ord (new_query (flat m'))))).
Proof. exact layout_free_literals. Qed.
Print Assumptions C02_layout_around_literals.
Local Ltac chars := intros ? H; cbn in H; unfold blank in *; intuition (subst; discriminate).
Example C02_example : layout ["select"; "a"] "select a" /\ layout ["select"; "a"] "
 select	a ".
Proof.
  split.
  - apply (layout_word "select" ["a"] "" " a"); [discriminate|chars|intros ? []|right; exists 32%N, "a"; split; unfold blank; auto|].
    apply (layout_word "a" [] " " ""); [discriminate|chars|intros ? [<-|[]]; unfold blank; auto|auto|].
    apply layout_end. intros ? [].
  - apply (layout_word "select" ["a"] "
 " "	a "); [discriminate|chars|intros ? [<-|[<-|[]]]; unfold blank; auto|right; exists 9%N, "a "; split; unfold blank; auto|].
    apply (layout_word "a" [] "	" " "); [discriminate|chars|intros ? [<-|[]]; unfold blank; auto|
      right; exists 32%N, ""; split; unfold blank; auto|].
    apply layout_end. intros ? [<-|[]]. unfold blank. auto.
Qed.
Example C02_example_format : format_sql "select a" = Ok "SELECT a" /\ format_sql "
 select	a " = Ok "SELECT a".
Proof. vm_compute. auto. Qed.
Local Ltac blanks := let H := fresh in intros ? H; cbn in H; unfold blank; repeat (destruct H as [<-|H]; [auto|]); contradiction.
Local Ltac words_end := split; (apply layout_end; blanks).
Example C02_example_literal :
  same_but_layout ("select ", [(39%N, "a  b", " ")]) ("  select	", [(39%N, "a  b", "
")])
  /\ format_sql (flat ("select ", [(39%N, "a  b", " ")])) = Ok "SELECT 'a  b'".
Proof.
  split; [|vm_compute; reflexivity]. split.
  - exists ["select"]. split.
    + apply (layout_word "select" [] "" " "); [discriminate|chars|blanks|right; exists 32%N, ""; split; unfold blank; auto|].
      apply layout_end. blanks.
    + apply (layout_word "select" [] "  " "	"); [discriminate|chars|blanks|right; exists 9%N, ""; split; unfold blank; auto|].
      apply layout_end. blanks.
  - constructor; [|constructor]. split; auto. split; auto. exists []. words_end.
Qed.
(** No word at all: the empty text and a blank one are treated differently. *)
Theorem C02_no_words_refuted : exists a b, layout [] a /\ layout [] b /\ format_sql a <> format_sql b.
Proof.
  exists "", " ". split; [apply layout_end; intros ? []|]. split; [apply layout_end; intros ? [<-|[]]; unfold blank; auto|].
  vm_compute. discriminate.
Qed.
Print Assumptions C02_no_words_refuted.

(** C03.  Recursion depth 21 suffices for every text. *)
Theorem C03_bounded_depth : forall s, tame s -> forall n, 21 <= n ->
  exists ts, split_tokens n s = (ts, None) /\ raw_tokens s = (ts, None).
Proof. exact depth_bound. Qed.
Print Assumptions C03_bounded_depth.
Example C03_example : split_tokens 21 "select f(a,b) from t" = (["select"; "f"; "("; "a"; ","; "b"; ")"; "from"; "t"], None).
Proof. vm_compute. auto. Qed.
(** A backslash directly before the first quote, or before a separator: no depth suffices. *)
Theorem C03_escaped_quote_refuted : forall q a, In q [39; 34; 96]%N -> quote_free a ->
  forall n b, snd (split_tokens n (a ++ [92; q]%N ++ b)) = Some RecursionError.
Proof. exact escaped_quote_diverges. Qed.
Print Assumptions C03_escaped_quote_refuted.
Theorem C03_escaped_separator_refuted : forall k a, separator k -> quote_free a ->
  (forall c, In c a -> ~ blank c /\ ~ separator c) ->
  forall n b, quote_free b -> (forall c, In c b -> ~ blank c /\ (separator c -> c = k)) ->
  snd (split_tokens n (a ++ [92; k]%N ++ b)) = Some RecursionError.
Proof. exact escaped_separator_diverges. Qed.
Print Assumptions C03_escaped_separator_refuted.
Example C03_refuted_example : to_tokens "select a\'b" = ([], Some RecursionError)
  /\ to_tokens "select a\,b" = (["select"], Some RecursionError).
Proof. vm_compute. auto. Qed.

(** C04.  Every literal gives quote, content, quote; the text around it is tokenised by itself. *)
Theorem C04_literals_verbatim : forall m, well_quoted m -> tame (flat m) -> flat m <> [] ->
  to_tokens (flat m) = (tokens_of (fst m) ++ flat_map literal_tokens (snd m), None).
Proof. exact literals_verbatim. Qed.
Print Assumptions C04_literals_verbatim.
Example C04_example : let m := ("select ", [(39%N, "a ""(, from`", " , "); (39%N, "", " x")]) in
  well_quoted m /\ flat m = "select 'a ""(, from`' , '' x"
  /\ to_tokens (flat m) = (["select"; "'"; "a ""(, from`"; "'"; ","; "'"; "'"; "x"], None).
Proof.
  cbn zeta. split; [|split; vm_compute; reflexivity].
  assert (Q : forall s, existsb is_quote s = false -> quote_free s).
  { intros s H c I J. assert (existsb is_quote s = true); [|congruence]. apply existsb_exists. exists c. split; auto.
    apply existsb_exists. exists c. split; auto. apply N.eqb_refl. }
  split; [apply Q; reflexivity|]. cbn [snd].
  repeat (apply Forall_cons || apply Forall_nil); repeat (split || apply Forall_cons || apply Forall_nil);
    try (apply Q; reflexivity); cbn; auto; intuition discriminate.
Qed.
(** One escaped quote inside a literal *)
Theorem C04_escaped_quote : forall q pre c1 c2 post, In q [39; 34; 96]%N ->
  quote_free pre -> tame pre -> quote_free post -> tame post -> ~ In q c1 -> ~ In q c2 ->
  to_tokens (pre ++ [q] ++ (c1 ++ [92; q]%N ++ c2) ++ [q] ++ post)
  = (tokens_of pre ++ [[q]; c1 ++ [92; q]%N ++ c2; [q]] ++ tokens_of post, None).
Proof. exact escaped_quote_kept. Qed.
Print Assumptions C04_escaped_quote.
Example C04_escaped_example : to_tokens "select 'it\'s'" = (["select"; "'"; "it\'s"; "'"], None).
Proof. vm_compute. auto. Qed.
(** Not for contents with a quote that delimits another literal, nor for two escaped quotes. *)
Theorem C04_mixed_quotes_refuted :
  to_tokens "select 'x', ""it's""" = (["select"; "'"; "x"; "'"; ","; """"; "it"; "'"; "s"""], None).
Proof. vm_compute. reflexivity. Qed.
Print Assumptions C04_mixed_quotes_refuted.
Theorem C04_two_escapes_refuted :
  to_tokens "select 'a\'b\'c'" = (["select"; "'"; "a\'b\"; "'"; "c"; "'"], None).
Proof. vm_compute. reflexivity. Qed.
Print Assumptions C04_two_escapes_refuted.

(** C05.  The shape of tokens outside literals *)
Theorem C05_token_shape : forall s ts e, tame s -> quote_free s -> to_tokens s = (ts, e) ->
  Forall (fun t => (forall c, In c t -> ~ blank c)
    /\ (2 <= length t -> (exists c, In c t /\ separator c) -> dotted_number t \/ two_char_operator t)) ts.
Proof. exact tokens_shape. Qed.
Print Assumptions C05_token_shape.
Example C05_example : to_tokens "a.b>=1.5 or c!" = (["a"; "."; "b"; ">="; "1.5"; "or"; "c!"], None).
Proof. vm_compute. auto. Qed.

(** C06.  Joining operators: adjacent pairs only, nothing lost, no error of its own. *)
Theorem C06_joins_pairs : forall l, exists l',
  merge_stream MERGE_TOKENS l None = (l', None) /\ joins l l' /\ concat l' = concat l.
Proof. exact merge_joins. Qed.
Print Assumptions C06_joins_pairs.
(** An exception of the token source is passed on; the merger adds none. *)
Theorem C06_no_error_of_its_own : forall l e, snd (merge_stream MERGE_TOKENS l (Some e)) = Some e.
Proof. exact merge_error. Qed.
Print Assumptions C06_no_error_of_its_own.
(** An operator written as two tokens is joined, after any token without operator characters. *)
Theorem C06_operator_joined : forall l t a b r, no_operator t -> two_char_operator [a; b] ->
  fst (merge_stream MERGE_TOKENS (l ++ t :: [a] :: [b] :: r) None)
  = fst (merge_stream MERGE_TOKENS l None) ++ t :: [a; b] :: fst (merge_stream MERGE_TOKENS r None).
Proof. exact merge_pair. Qed.
Print Assumptions C06_operator_joined.
Example C06_example : no_operator "a" /\ two_char_operator [60; 61]%N
  /\ merge_stream MERGE_TOKENS ["a"; "<"; "="; "b"; ">"] None = (["a"; "<="; "b"; ">"], None).
Proof.
  split; [|split; [cbn; auto 10|vm_compute; reflexivity]]. split; [discriminate|].
  intros c [<-|[]] H. cbn in H. intuition discriminate.
Qed.
