(** The printed text of a tree of the fragment lexes into the tokens of its upper-cased form. *)
From Verif Require Import PyStr PyFloat Lib Digits AstLib Ast Tokeniser SpecTok ProofTok ProofTok2 ProofTok3 Grammar Scan GramTok GramExpr Render RenderEq LexText GramUp GramAlike.
Local Open Scope str_scope.
Local Open Scope list_scope.

Definition canon (t : tok) : str := match t with Kw k => upper k | Id i => i | Num z => str_of_Z z end.
Definition ct (n : node) : list str := map canon (toks (up n)).
Definition Good (m : mode) (n : node) (ts : list str) : Prop := exists s, render m n = Ok s /\ T s ts.

Lemma T_eq : forall s ts ts', T s ts -> ts = ts' -> T s ts'.
Proof. intros; subst; auto. Qed.
Lemma map_commas : forall l, map canon (commas l) = joint_toks [","] (map (map canon) l).
Proof.
  induction l as [|x l IH]; auto. destruct l as [|y l]; auto. change (commas (x :: y :: l)) with (x ++ Id "," :: commas (y :: l)).
  rewrite map_app. cbn [map]. cbn [map] in IH. rewrite IH. reflexivity.
Qed.
Lemma ct_list : forall l, map canon (commas (map toks (map up l))) = joint_toks [","] (map ct l).
Proof. intros l. rewrite map_commas, !map_map. reflexivity. Qed.
Ltac nrm := repeat (rewrite ?map_app, <- ?app_assoc, ?app_nil_r, ?ct_list; cbn [app map canon opt_toks]).
Ltac ctn := unfold ct; cbn [up toks option_map fst snd]; unfold parens, Grammar.brackets, kws; nrm.
Ltac fixed := eapply T_fix; [reflexivity|vm_compute; reflexivity|reflexivity].
Ltac jn := first [apply joint_l; reflexivity | apply joint_r; reflexivity].
Ltac tgo := lazymatch goal with
  | |- T (?a ++ ?b) _ => eapply T_app; [tgo|tgo|try jn]
  | |- T (indent _) _ => apply T_indent; tgo
  | |- T (indent2 _) _ => apply T_indent2; tgo
  | |- T _ _ => first [eassumption | fixed | idtac]
  end.
Ltac tk := eapply T_eq; [tgo|].

Lemma hdb_app : forall a b, hdb a = true -> hdb b = true -> hdb (a ++ b) = true.
Proof. intros [|c a] b; auto. Qed.
Lemma hdb_indent : forall a, hdb a = true -> hdb (indent a) = true.
Proof. intros [|c a] H; auto. rewrite indent_ind, ind_cons. destruct (N.eqb c 10); auto. Qed.
Definition TB (s : str) (ts : list str) : Prop := T s ts /\ hdb s = true.
Lemma TB_app : forall s1 t1 s2 t2, TB s1 t1 -> TB s2 t2 -> TB (s1 ++ s2) (t1 ++ t2).
Proof. intros s1 t1 s2 t2 [A B] [C D]. split; auto using hdb_app. apply T_app; auto using joint_r. Qed.
Lemma T_TB : forall s1 t1 s2 t2, T s1 t1 -> TB s2 t2 -> T (s1 ++ s2) (t1 ++ t2).
Proof. intros s1 t1 s2 t2 A [C D]. apply T_app; auto using joint_r. Qed.
Lemma TB_nil : TB [] [].
Proof. split; auto using T_nil. Qed.

(** ** Modes *)
Definition wrapm (m : mode) (ts : list str) : list str :=
  match m with Side k => repeat "(" k ++ ts ++ repeat ")" k | _ => ts end.
Lemma repeat_snoc : forall {A} (x : A) k, repeat x (S k) = repeat x k ++ [x].
Proof. intros A x k. induction k as [|k IH]; auto. cbn [repeat app] in *. f_equal. auto. Qed.
Lemma repeat_comm : forall {A} (x : A) k l, repeat x k ++ x :: l = x :: repeat x k ++ l.
Proof. intros A x k l. induction k as [|k IH]; auto. cbn [repeat app]. rewrite IH. auto. Qed.
Lemma T_rep : forall c k, T [c] [[c]] -> brk c = true -> T (repeat_s k c) (repeat [c] k) /\ hdb (repeat_s k c) = true /\ lastb (repeat_s k c) = true.
Proof.
  intros c k H B. unfold repeat_s. induction k as [|k (I1 & I2 & I3)]; [repeat split; auto using T_nil|]. repeat split; auto.
  - change (T ([c] ++ repeat c k) ([[c]] ++ repeat [c] k)). apply T_app; auto. apply joint_r. auto.
  - cbn [repeat lastb]. destruct (repeat c k); auto.
Qed.
Lemma T_side : forall k b el ts, T el ts -> T (side_wrap k b el) (wrapm (Side k) ts).
Proof.
  intros k b el ts H. destruct k as [|k].
  - cbn [wrapm repeat app side_wrap]. rewrite app_nil_r. auto.
  - destruct (T_rep 40 (S k)) as (A & B & C); [fixed|reflexivity|]. destruct (T_rep 41 (S k)) as (A' & B' & C'); [fixed|reflexivity|].
    unfold side_wrap. cbn [wrapm]. destruct b.
    + tk; auto using joint_r, joint_l.
    + tk; auto using joint_r, joint_l.
Qed.
Lemma T_finish : forall m t ts, T t ts -> T (finish m t) (wrapm m ts).
Proof.
  intros m t ts H. destruct m; cbn [finish]; try exact H.
  - unfold clause_text. destruct (has_nl t); cbn [wrapm]; tk; reflexivity.
  - unfold when_text. destruct (has_nl t); cbn [wrapm]; tk; nrm; reflexivity.
  - apply T_side. auto.
Qed.
Definition regular (n : node) : bool :=
  match n with NSelect _ _ _ _ _ _ _ _ _ _ _ _ | NParen _ | NBoolC _ _ _ | NAlias _ _ _ | NWith _ _ => false | _ => true end.
Lemma finish_regular : forall m (a : R str), (t <- a ;; Ok (finish m t)) = (t <- (t <- a ;; Ok (finish Tr t)) ;; Ok (finish m t)).
Proof. intros m [a|e]; auto. Qed.
Lemma render_regular : forall n m, regular n = true -> render m n = (t <- render Tr n ;; Ok (finish m t)).
Proof.
  intros n m H. destruct n; try discriminate H;
  first [rewrite !render_NOrderItem | rewrite !render_NFun | rewrite !render_NCast | rewrite !render_NCount | rewrite !render_NArrayAgg
   | rewrite !render_NFiltered | rewrite !render_NAnalytics | rewrite !render_NColumn | rewrite !render_NChained | rewrite !render_NType | rewrite !render_NDatePart
   | rewrite !render_NString | rewrite !render_NInt | rewrite !render_NFloat | rewrite !render_NNull | rewrite !render_NBool | rewrite !render_NArray | rewrite !render_NIndex
   | rewrite !render_NArith | rewrite !render_NBitwise | rewrite !render_NTable | rewrite !render_NUnnest | rewrite !render_NJoin | rewrite !render_NCombined | rewrite !render_NCond
   | rewrite !render_NNeg | rewrite !render_NExcept | rewrite !render_NReplace | rewrite !render_NCase]; apply finish_regular.
Qed.
Lemma regular_good : forall n m ts, regular n = true -> Good Tr n ts -> Good m n (wrapm m ts).
Proof. intros n m ts H (s & E & X). exists (finish m s). split; [rewrite render_regular by auto; rewrite E; auto|apply T_finish; auto]. Qed.
Lemma render_boolc : forall ty l r m, m <> Str -> m <> NL -> render m (NBoolC ty l r) = (t <- render Tr (NBoolC ty l r) ;; Ok (finish m t)).
Proof.
  intros ty l r m M1 M2. rewrite !render_NBoolC. destruct (render Tr l); [|destruct m; auto; congruence]. cbn [rbind]. destruct (render Tr r); [|destruct m; auto; congruence]. cbn [rbind].
  destruct m; try congruence; rewrite ?andb_true_r; match goal with |- context [if ?b then _ else _] => destruct b; [reflexivity|] end; destruct (render NL l); auto; cbn [rbind]; destruct (render NL r); auto.
Qed.
Lemma render_sub : forall n, wf Ex n = true -> render Sub n = render Tr n.
Proof.
  intros n W. destruct (regular n) eqn:G.
  - rewrite (render_regular n Sub) by auto. destruct (render Tr n); auto.
  - destruct n; try discriminate W; try discriminate G.
    + rewrite !render_NParen. auto.
    + rewrite !render_NAlias. auto.
    + rewrite render_boolc by discriminate. destruct (render Tr (NBoolC ty n1 n2)); auto.
Qed.
Lemma render_str : forall n, wf Ex n = true -> lvl n <= 3 -> render Str n = render Tr n.
Proof.
  intros n W L. destruct (regular n) eqn:G.
  - rewrite (render_regular n Str) by auto. destruct (render Tr n); auto.
  - destruct n; try discriminate W; try discriminate G; cbn [lvl] in L; try lia. rewrite !render_NParen. auto.
Qed.

(** ** Pieces *)
Lemma good_list : forall m l, (forall x, In x l -> Good m x (ct x)) -> exists ss, rmap (render m) l = Ok ss /\ Forall2 T ss (map ct l).
Proof.
  intros m l. induction l as [|x l IH]; intros H; [exists []; split; auto; constructor|].
  destruct (H x (or_introl eq_refl)) as (s & E & X). destruct IH as (ss & E' & F); [intros; apply H; right; auto|].
  exists (s :: ss). split; [cbn [rmap]; rewrite E; cbn [rbind]; rewrite E'; auto|]. constructor; auto.
Qed.
Lemma T_indents : forall ss tss, Forall2 T ss tss -> Forall2 T (map indent ss) tss.
Proof. intros ss tss F. induction F; constructor; auto using T_indent. Qed.
Lemma T_commas : forall g ss tss, T g [","] -> hdb g = true -> lastb g = true -> g <> [] -> Forall2 T ss tss -> T (join g ss) (joint_toks [","] tss).
Proof. intros. apply T_join; auto. Qed.
Ltac lst := first [eassumption | apply T_indents; eassumption].
Ltac list_ := first [apply T_commas; [fixed|reflexivity|reflexivity|discriminate|lst] | eapply T_join; [lst|fixed|reflexivity|reflexivity|discriminate]].
Lemma T_call : forall name ss tss, word name = true -> Forall2 T ss tss -> T (call_text name ss) (upper name :: "(" :: joint_toks [","] tss ++ [")"]).
Proof.
  intros name ss tss W F. assert (X : T (upper name) [upper name]) by (apply T_word; rewrite word_upper; auto). unfold call_text.
  destruct (_ || _); (tk; [list_|nrm; reflexivity]).
Qed.
Lemma digit_word : forall d, isdigit d = true -> word d = true.
Proof.
  intros d H. unfold word. destruct d as [|c d]; [discriminate|]. cbn [str_eqb negb andb]. unfold isdigit in H. apply forallb_forall. intros x X. rewrite forallb_forall in H. apply H in X.
  unfold is_digit_c in X. apply andb_true_iff in X as [A B]. apply N.leb_le in A, B. unfold word_char. apply negb_true_iff. destruct (existsb _ _) eqn:E; auto.
  apply existsb_exists in E as (y & Y & Z). apply N.eqb_eq in Z. subst y. cbn in Y. repeat (destruct Y as [<-|Y]; [exfalso; lia|]). contradiction.
Qed.
Lemma T_int : forall z, T (str_of_Z z) (ct (NInt z)).
Proof.
  intros z. unfold ct. cbn [up toks]. destruct (Z.ltb_spec z 0) as [L|L].
  - assert (D : isdigit (str_of_Z (- z)) = true) by (apply str_of_Z_digits; lia).
    replace (str_of_Z z) with ("-" ++ str_of_Z (- z)) by (destruct z; try lia; reflexivity). tk; [apply T_word, digit_word, D|reflexivity].
  - apply T_word, digit_word, str_of_Z_digits. lia.
Qed.
Lemma T_float : forall t, float_ok t = true -> T t [t].
Proof.
  intros t H. assert (NC := float_num t H). unfold float_ok in H. rewrite !andb_true_iff in H. destruct H as [[[A B] C] _].
  assert (CH : forall c, In c t -> (48 <= c <= 57)%N \/ c = 46%N).
  { intros c I. rewrite forallb_forall in NC. apply NC in I. unfold numc in I. apply orb_true_iff in I as [I|I]; [left|right; apply N.eqb_eq; auto].
    unfold is_digit_c in I. apply andb_true_iff in I as [X Y]. apply N.leb_le in X, Y. lia. }
  assert (P : plainb t = true).
  { unfold plainb. apply forallb_forall. intros c I. apply CH in I. apply negb_true_iff. destruct (existsb _ _) eqn:E; auto.
    apply existsb_exists in E as (y & Y & Z). apply N.eqb_eq in Z. subst y. cbn in Y. repeat (destruct Y as [<-|Y]; [exfalso; lia|]). contradiction. }
  assert (NE : t <> []) by (intros ->; discriminate A).
  assert (X : raw0 t = [t]).
  { destruct (plainb_ok t P). rewrite raw0_items by auto. rewrite items_plain; auto.
    - cbn [flat_map]. rewrite app_nil_r. unfold chunk. assert (Y : is_number_text t = true) by (unfold is_number_text, no_dots; rewrite A, C; auto). destruct t as [|c [|d t]]; rewrite ?Y; auto.
    - intros c I. apply CH in I. destruct I as [I| ->]; [|split; reflexivity]. split.
      + unfold is_ws. destruct (existsb _ _) eqn:E; auto. apply existsb_exists in E as (y & Y & Z). apply N.eqb_eq in Z. subst y. exfalso. revert I. clear - Y. cbn in Y. intuition (subst; lia).
      + unfold cut. apply andb_false_iff. left. unfold is_kept. destruct (existsb _ _) eqn:E; auto. apply existsb_exists in E as (y & Y & Z). apply N.eqb_eq in Z. subst y. exfalso. revert I. clear - Y. cbn in Y. intuition (subst; lia). }
  exists [t]. split; [apply lexes_plain; auto|]. apply M_inert. constructor; auto. apply inertb_ok. unfold inertb. destruct t as [|c0 t0]; [congruence|]. cbn [str_eqb negb andb].
  apply forallb_forall. intros c I. apply CH in I. apply negb_true_iff. destruct (existsb _ _) eqn:E; auto.
  apply existsb_exists in E as (y & Y & Z). apply N.eqb_eq in Z. subst y. cbn in Y. repeat (destruct Y as [<-|Y]; [exfalso; lia|]). contradiction.
Qed.
Lemma T_kws : forall s, forallb word (split 32 s) = true -> T s (split 32 s).
Proof.
  intros s W. rewrite <- (join_split s) at 1. eapply T_eq; [apply (T_join " " [] (split 32 s) (map (fun w => [w]) (split 32 s)))|].
  - clear - W. induction (split 32 s) as [|w l IH]; cbn [map]; constructor; cbn [forallb] in W; apply andb_true_iff in W as [A B]; auto using T_word.
  - fixed.
  - reflexivity.
  - reflexivity.
  - discriminate.
  - clear. induction (split 32 s) as [|w [|v l] IH]; auto. cbn [map joint_toks app] in *. rewrite IH. auto.
Qed.
Lemma ident_word : forall v, ident v = true -> word v = true.
Proof. intros v H. unfold ident in H. bools. auto. Qed.
Lemma T_ident : forall v, ident v = true -> T v [v].
Proof. intros. apply T_word, ident_word. auto. Qed.

(** ** Ends of texts *)
Lemma word_solid : forall w, word w = true -> forallb solid w = true.
Proof.
  intros w W. unfold word in W. apply andb_true_iff in W as [_ W]. apply forallb_forall. intros c I. unfold solid. apply andb_true_iff. split; apply negb_true_iff.
  - destruct (word_nobrk w c W I) as [A B]. unfold brk, cut. rewrite A, B. auto.
  - destruct (existsb _ _) eqn:E; auto. apply existsb_exists in E as (y & Y & Z). apply N.eqb_eq in Z. subst y.
    exfalso. assert (X : plainb w = true) by (apply word_plainb; auto). unfold plainb in X. rewrite forallb_forall in X. apply X in I. apply negb_true_iff in I.
    cbn in Y. destruct Y as [<-|[<-|[<-|[]]]]; discriminate I.
Qed.
Lemma ident_named : forall v, ident v = true -> named v.
Proof.
  intros v H. unfold ident in H. bools. assert (W := H). unfold word in W. apply andb_true_iff in W as [NE W].
  assert (X : exists c, In c v /\ is_digit_c c = false).
  { assert (D : isdigit v = false) by auto. unfold isdigit in D. destruct v as [|c v]; [discriminate NE|]. revert D. generalize (c :: v). clear. intros l. induction l as [|d l IH]; [discriminate|].
    cbn [forallb]. intros D. apply andb_false_iff in D as [D|D]; [exists d; split; [left|]; auto|]. destruct (IH D) as (x & I & X). exists x. split; [right|]; auto. }
  destruct X as (c & I & D). exists c. repeat split; auto. intros ->. rewrite forallb_forall in W. apply W in I. discriminate I.
Qed.
Lemma dotl_app : forall a b, dotl b -> dotl (a ++ b).
Proof.
  intros a b [(p & c & -> & S)|(p & w & -> & S & N)]; [left; exists (a ++ p), c; rewrite app_assoc; auto|right; exists (a ++ p), w; rewrite app_assoc; auto].
Qed.
Lemma dotr_app : forall a b, dotr a -> dotr (a ++ b).
Proof.
  intros a b [(p & c & -> & S)|(p & w & -> & S & N)]; [left; exists (p ++ b), c; auto|right; exists (p ++ b), w; rewrite app_assoc; auto].
Qed.
Lemma dotl_ident : forall v, ident v = true -> dotl v.
Proof. intros v H. right. exists [], v. auto using word_solid, ident_word, ident_named. Qed.
Lemma dotr_ident : forall v, ident v = true -> dotr v.
Proof. intros v H. right. exists [], v. rewrite app_nil_r. auto using word_solid, ident_word, ident_named. Qed.
Lemma dotl_c : forall c, solid c = false -> dotl [c].
Proof. intros c S. left. exists [], c. auto. Qed.
Lemma dotr_c : forall c s, solid c = false -> dotr (c :: s).
Proof. intros c s S. left. exists s, c. auto. Qed.
Lemma dotl_word : forall w, forallb solid w = true -> existsb (fun c => negb (is_digit_c c) && negb (N.eqb c 46)) w = true -> dotl w.
Proof.
  intros w S N. right. exists [], w. repeat split; auto. apply existsb_exists in N as (c & I & X). bools. exists c. repeat split; auto. apply N.eqb_neq. auto.
Qed.
Lemma dotr_word : forall w s, forallb solid w = true -> existsb (fun c => negb (is_digit_c c) && negb (N.eqb c 46)) w = true -> dotr (w ++ s).
Proof. intros w s S N. apply dotr_app. right. exists [], w. rewrite app_nil_r. repeat split; auto. apply existsb_exists in N as (c & I & X). bools. exists c. repeat split; auto. apply N.eqb_neq. auto. Qed.
Fixpoint run (s : str) : str := match s with c :: r => if solid c then c :: run r else [] | [] => [] end.
Lemma run_split : forall s, exists r, s = run s ++ r /\ forallb solid (run s) = true.
Proof. induction s as [|c s (r & E & S)]; [exists []; auto|]. cbn [run]. destruct (solid c) eqn:C; [exists r; cbn [app forallb]; rewrite C, <- E; auto|exists (c :: s); auto]. Qed.
Lemma dotr_lit : forall w s, existsb (fun c => negb (is_digit_c c) && negb (N.eqb c 46)) (run w) = true -> dotr (w ++ s).
Proof.
  intros w s N. destruct (run_split w) as (r & E & S). rewrite E. rewrite <- app_assoc. apply dotr_word; auto.
Qed.
Ltac dl := repeat apply dotl_app; first [apply dotl_c; reflexivity | apply dotl_word; reflexivity].
Ltac dr := first [apply dotr_c; reflexivity | apply dotr_app, dotr_c; reflexivity | apply dotr_lit; reflexivity].
Lemma call_l : forall name ss, dotl (call_text name ss).
Proof. intros name ss. unfold call_text. destruct (_ || _); dl. Qed.
Lemma call_r : forall name ss, ident name = true -> dotr (call_text name ss).
Proof. intros name ss I. unfold call_text. destruct (_ || _); apply dotr_app, dotr_ident; rewrite ident_upper; auto. Qed.

(** ** Clauses *)
Lemma clause_hd : forall t, hdb (clause_text t) = true.
Proof. intros t. unfold clause_text. destruct (has_nl t); auto. Qed.
Lemma when_hd : forall t, hdb (when_text t) = true.
Proof. intros t. unfold when_text. destruct (has_nl t); auto. Qed.
Lemma lastb_snoc : forall a c, brk c = true -> lastb (a ++ [c]) = true.
Proof. intros a c B. induction a as [|d a IH]; auto. cbn [app]. destruct (a ++ [c]) eqn:E; [destruct a; discriminate|]. cbn [lastb] in *. auto. Qed.
Lemma when_last : forall t, lastb (when_text t) = true.
Proof.
  intros t. unfold when_text. destruct (has_nl t).
  - replace (nl ++ "  " ++ indent2 t ++ nl ++ " ") with ((nl ++ "  " ++ indent2 t ++ nl) ++ [32%N]) by (rewrite <- !app_assoc; auto). apply lastb_snoc. auto.
  - replace (" " ++ t ++ " ") with ((" " ++ t) ++ [32%N]) by (rewrite <- !app_assoc; auto). apply lastb_snoc. auto.
Qed.
