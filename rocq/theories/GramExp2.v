(** Expressions of the fragment print into texts of their tokens. *)
From Verif Require Import PyStr PyFloat Lib Digits AstLib Ast Tokeniser SpecTok ProofTok ProofTok2 ProofTok3 Grammar Scan GramTok GramExpr Render RenderEq LexText GramUp GramAlike GramText GramRender.
Local Open Scope str_scope.
Local Open Scope list_scope.

Ltac kid IH c s E X D := destruct (g_exc _ IH c) as (s & E & X & D); [child|auto|].
Ltac kids IH l ss E F := destruct (g_args _ IH l) as (ss & E & F); [intros ? ?; child|auto|].
Ltac done_ := eexists; split; [reflexivity|]; split.
Ltac hb := first [reflexivity | assumption | apply hdb_app; hb].
Ltac jr := apply joint_r; hb.
Lemma hdb_opt : forall (b : bool) s, hdb s = true -> hdb (if b then s else "") = true.
Proof. intros [|] s H; auto. Qed.
Lemma ge_aggr : forall n c d i r o l, n = NArrayAgg c d i r o l -> (forall x, size x < size n -> GA x) -> wf Ex n = true -> exists s, render Tr n = Ok s /\ T s (ct n) /\ ends n s.
Proof.
  intros n c d i r o l -> IH W. rewrite wf_arrayagg in W. bools. subst. kid IH c s E X D. rewrite render_NArrayAgg, E. cbn [rbind].
  assert (OT : exists t, match o with Some l => l <- rmap (render Str) l ;; t <- order_text false l ;; Ok (" ORDER BY" ++ t) | None => Ok "" end = Ok t
    /\ TB t (map canon (match option_map (map up) o with Some l => Kw "order" :: Kw "by" :: commas (map toks l) | None => [] end))).
  { destruct o as [os|]; [|exists []; split; auto using TB_nil]. cbn [oall option_map] in *. destruct (g_items _ IH os) as (ss & A & B & C); [intros ? ?; child|auto|].
    destruct (T_order false ss os B C) as (t & P & [Q1 Q2]). exists (" ORDER BY" ++ t). rewrite A. cbn [rbind]. rewrite P. split; auto. split; auto.
    eapply T_eq; [eapply T_app; [fixed|exact Q1|apply joint_r; auto]|]. nrm. reflexivity. }
  destruct OT as (t & -> & TT & TH). cbn [rbind finish].
  assert (LT : exists u, match l with Some z => if Z.eqb z 0 then "" else " LIMIT " ++ str_of_Z z | None => "" end = u
    /\ TB u (map canon (match l with Some z => [Kw "limit"; Num (Z.abs z)] | None => [] end))).
  { destruct l as [z|]; [|exists []; split; auto using TB_nil]. cbn [oall] in *. match goal with Z : (0 <? z)%Z = true |- _ => apply Z.ltb_lt in Z; rename Z into ZL end.
    destruct (Z.eqb_spec z 0); [lia|]. rewrite Z.abs_eq by lia. eexists. split; [reflexivity|]. split; [|reflexivity]. tk; [apply T_word, digit_word, str_of_Z_digits; lia|reflexivity]. }
  destruct LT as (u & -> & UT & UH).
  eexists. split; [reflexivity|]. split; [|split; intros; [dl|dr]].
  assert (IT : TB (if i then " IGNORE NULLS" else "") (map canon (if i then [Kw "ignore"; Kw "nulls"] else []))).
  { destruct i; [split; [fixed|auto]|apply TB_nil]. }
  destruct IT as [IT IT']. assert (HH : hdb (t ++ u ++ ")") = true) by (repeat apply hdb_app; auto).
  destruct d; (tk; [jr..|fin]).
Qed.

Lemma ge_over : forall n f p o fr, n = NAnalytics f p o fr -> (forall x, size x < size n -> GA x) -> wf Ex n = true -> exists s, render Tr n = Ok s /\ T s (ct n) /\ ends n s.
Proof.
  intros n f p o fr -> IH W. rewrite wf_analytics in W. bools. kid IH f s E X D. rewrite render_NAnalytics, E. cbn [rbind].
  assert (PT : exists t, match p with
           | Some (x :: l) =>
             l <- rmap (render Tr) (x :: l) ;;
             Ok (nl ++ " PARTITION BY" ++ match l with [t] => " " ++ t | _ => nl ++ "  " ++ join ("," ++ nl ++ "  ") l end)
           | _ => Ok "" end = Ok t
    /\ TB t (map canon (match option_map (map up) p with Some l => Kw "partition" :: Kw "by" :: commas (map toks l) | None => [] end)) /\ (has_nl t = false -> t = [])).
  { destruct p as [[|x l]|]; [cbn in *; bools; discriminate| |exists []; auto using TB_nil]. cbn [oall option_map] in *. bools.
    destruct (good_list Tr (x :: l)) as (ss & A & B).
    { intros y Y. match goal with V : forallb (upto 4) _ = true |- _ => rewrite forallb_forall in V; specialize (V y Y) end. bools. apply (g_tr _ IH); auto. child. }
    rewrite A. cbn [rbind]. eexists. split; [reflexivity|]. split; [|intros; discriminate]. split; [|reflexivity]. destruct ss as [|t [|t' ss]]; [inversion B| |].
    - destruct l; [|inversion B; match goal with V : Forall2 T [] _ |- _ => inversion V end]. inversion B; subst. tk. nrm. reflexivity.
    - tk; [list_|]. exact (eq_sym (f_equal (fun z => "PARTITION" :: "BY" :: z) (ct_list (x :: l)))). }
  destruct PT as (t & -> & [PT PH] & PN). cbn [rbind].
  assert (OT : exists t, match o with Some l => l <- rmap (render Str) l ;; t <- order_text true l ;; Ok (nl ++ " ORDER BY" ++ indent t) | None => Ok "" end = Ok t
    /\ TB t (map canon (match option_map (map up) o with Some l => Kw "order" :: Kw "by" :: commas (map toks l) | None => [] end)) /\ (has_nl t = false -> t = [])).
  { destruct o as [os|]; [|exists []; auto using TB_nil]. cbn [oall option_map] in *. destruct (g_items _ IH os) as (ss & A & B & C); [intros ? ?; child|auto|].
    destruct (T_order true ss os B C) as (u & P & [Q1 Q2]). exists (nl ++ " ORDER BY" ++ indent u). rewrite A. cbn [rbind]. rewrite P. split; auto. split; [|intros; discriminate]. split; auto.
    eapply T_eq; [eapply T_app; [fixed|eapply T_app; [fixed|apply T_indent; exact Q1|apply joint_r; apply hdb_indent; auto]|jn]|]. nrm. reflexivity. }
  destruct OT as (u & -> & [OT OH] & ON). cbn [rbind finish].
  assert (Z : T (s ++ " OVER (" ++ t ++ u) (ct f ++ "OVER" :: "(" :: map canon (match option_map (map up) p with Some l => Kw "partition" :: Kw "by" :: commas (map toks l) | None => [] end)
     ++ map canon (match option_map (map up) o with Some l => Kw "order" :: Kw "by" :: commas (map toks l) | None => [] end))).
  { eapply T_eq; [eapply T_app; [exact X|eapply T_app; [fixed|eapply T_app; [exact PT|exact OT|jr]|jn]|jn]|]. nrm. reflexivity. }
  assert (DL : forall (b : bool) x, dotl (x ++ (if b then nl ++ ")" else ")"))) by (intros [|] x; dl).
  assert (DR : is_number (lead (NAnalytics f p o fr)) = false -> forall x, dotr (s ++ x)).
  { cbn [lead]. intros L x. apply dotr_app. apply D; auto; left; lia. }
  assert (CL : forall (b : bool) w ts, T w ts -> T (w ++ (if b then nl ++ ")" else ")")) (ts ++ [")"])) by (intros [|] w ts TW; tk; nrm; reflexivity).
  destruct fr as [[rr f1]|].
  - eexists. split; [reflexivity|]. split; [|split; intros; [apply DL|rewrite <- !app_assoc; apply DR; auto]].
    cbn [oall] in *. match goal with V : frameok _ = true |- _ => unfold frameok in V; cbn [fst snd] in V end. bools.
    assert (T1 : T (upper rr) [upper rr]) by (eapply T_kw; [eassumption|reflexivity]).
    assert (T2 : T (upper f1) (split 32 (upper f1))).
    { apply T_kws. rewrite split_upper. match goal with V : forallb _ (split 32 f1) = true |- _ => revert V end. clear. induction (split 32 f1) as [|w l I]; auto. cbn [map forallb]. intros V. bools. rewrite word_upper, H. auto. }
    eapply T_eq; [apply CL; eapply T_app; [exact Z|eapply T_app; [|eapply T_app; [exact T1|eapply T_app; [fixed|exact T2|jn]|jn]|]|]|].
    + instantiate (1 := []). match goal with |- T (if ?b then _ else _) _ => destruct b; [fixed|apply T_nil] end.
    + match goal with |- joint (if ?b then _ else _) _ => destruct b; apply joint_l; reflexivity end.
    + destruct (has_nl (s ++ " OVER (" ++ t ++ u)) eqn:NL; [apply joint_r; reflexivity|]. apply joint_l. unfold has_nl in NL. rewrite !has_app in NL.
      apply orb_false_iff in NL as [_ NL]. apply orb_false_iff in NL as [_ NL]. apply orb_false_iff in NL as [N1 N2].
      rewrite (PN N1), (ON N2). clear. rewrite !app_nil_r.
      replace (s ++ " OVER (") with ((s ++ " OVER ") ++ [40%N]) by (rewrite <- app_assoc; auto). apply lastb_snoc. reflexivity.
    + ctn. rewrite map_map. change (map (fun x => canon (Id x)) (split 32 (upper f1))) with (map (fun x : str => x) (split 32 (upper f1))). rewrite map_id. reflexivity.
  - eexists. split; [reflexivity|]. split; [|split; intros; [apply DL|rewrite <- !app_assoc; apply DR; auto]].
    eapply T_eq; [apply CL; exact Z|]. fin.
Qed.
Lemma joint_nil : forall l, joint_toks [] l = concat l.
Proof.
  induction l as [|x l I]; auto. destruct l as [|y l]; [cbn; rewrite app_nil_r; auto|].
  change (joint_toks [] (x :: y :: l)) with (x ++ joint_toks [] (y :: l)). rewrite I. auto.
Qed.
Definition wct (wt : node * node) : list str := "WHEN" :: ct (fst wt) ++ "THEN" :: ct (snd wt).
Lemma ge_case : forall n e ws els, n = NCase e ws els -> (forall x, size x < size n -> GA x) -> wf Ex n = true -> exists s, render Tr n = Ok s /\ T s (ct n) /\ ends n s.
Proof.
  intros n e ws els -> IH W. rewrite wf_case in W. bools. rewrite render_NCase.
  assert (ET : exists t, match e with Some x => t <- render Tr x ;; Ok (" " ++ t) | None => Ok "" end = Ok t
    /\ TB t (map canon (match option_map up e with Some x => toks x | None => [] end))).
  { destruct e as [x|]; [|exists []; split; auto using TB_nil]. cbn [oall option_map] in *. bools. kid IH x s E X D. rewrite E. eexists. split; [reflexivity|]. split; auto. tk. reflexivity. }
  destruct ET as (t & -> & TT & TH). cbn [rbind].
  assert (WT : exists ss, rmap (fun wt => w <- render When (fst wt) ;; t <- render Str (snd wt) ;; Ok ("WHEN" ++ w ++ "THEN " ++ t)) ws = Ok ss /\ Forall2 T ss (map wct ws)).
  { assert (Q : forall q, In q ws -> size (fst q) < size (NCase e ws els) /\ size (snd q) < size (NCase e ws els)).
    { intros q I. split; apply children_size; cbn [children]; apply in_or_app; right; apply in_or_app; [left; apply in_map; auto|right; apply in_or_app; left; apply in_map; auto]. }
    match goal with X : forallb wtok _ = true |- _ => rename X into WT end. rewrite forallb_forall in WT. revert Q WT. generalize ws at 1 4 5 6. intros l.
    induction l as [|q l I]; intros Q WT; [exists []; split; auto; constructor|].
    destruct I as (ss & A & B); [intros; apply Q; right; auto|intros; apply WT; right; auto|].
    destruct (Q q (or_introl eq_refl)). assert (V := WT q (or_introl eq_refl)). unfold wtok in V. bools.
    destruct (g_clause _ (fst q) IH) as (_ & (w & W1 & [W2 W3] & W4 & W5)); auto. destruct (g_str _ IH (snd q)) as (u & U1 & U2); auto.
    exists (("WHEN" ++ w ++ "THEN " ++ u) :: ss). split; [cbn [rmap]; rewrite W1; cbn [rbind]; rewrite U1; cbn [rbind]; rewrite A; auto|].
    constructor; auto. eapply T_eq; [eapply T_app; [fixed|eapply T_app; [exact W2|eapply T_app; [fixed|exact U2|jn]|apply joint_l; auto]|apply joint_r; destruct w; [congruence|exact W3]]|reflexivity]. }
  destruct WT as (ss & -> & WF). cbn [rbind].
  assert (LT : exists u, match els with Some x => t <- render Tr x ;; Ok (nl ++ " ELSE " ++ t) | None => Ok "" end = Ok u
    /\ TB u (map canon (match option_map up els with Some x => Kw "else" :: toks x | None => [] end))).
  { destruct els as [x|]; [|exists []; split; auto using TB_nil]. cbn [oall option_map] in *. bools. kid IH x s E X D. rewrite E. eexists. split; [reflexivity|]. split; auto. tk. reflexivity. }
  destruct LT as (u & -> & UT & UH). cbn [rbind finish]. eexists. split; [reflexivity|]. split; [|split; intros; [dl|dr]].
  eapply T_eq; [eapply T_app; [fixed|eapply T_app; [exact TT|eapply T_app; [fixed|eapply T_app; [fixed|eapply T_app; [list_|eapply T_app; [exact UT|eapply T_app; [fixed|fixed|jn]|jn]|jr]|jn]|jn]|jn]|jr]|].
  rewrite joint_nil. ctn.
  assert (Z : map canon (flat_map (fun wt => Kw "when" :: toks (fst wt) ++ Kw "then" :: toks (snd wt)) (map (fun wt => (up (fst wt), up (snd wt))) ws)) = concat (map wct ws)).
  { clear. induction ws as [|q l I]; auto. cbn [map flat_map concat fst snd]. rewrite map_app, I. f_equal. unfold wct. nrm. reflexivity. }
  rewrite Z. reflexivity.
Qed.

Lemma ops_in : forall op, In op BITWISE_OPERATORS -> In op ["="; ">"; "<"; "<="; ">="; "!="; "<>"; "<<"; ">>"; "&"; "^"; "#"; "|"; "||"; "+"; "-"; "*"; "/"].
Proof. intros op I. cbn in I. repeat (destruct I as [<-|I]; [cbn; tauto|]). contradiction. Qed.
Lemma ariths_in : forall op, In op ["+"; "-"; "*"; "/"] -> In op ["="; ">"; "<"; "<="; ">="; "!="; "<>"; "<<"; ">>"; "&"; "^"; "#"; "|"; "||"; "+"; "-"; "*"; "/"].
Proof. intros op I. cbn in I. repeat (destruct I as [<-|I]; [cbn; tauto|]). contradiction. Qed.
Lemma ge_cond : forall n e p r, n = NCond e p r -> (forall x, size x < size n -> GA x) -> wf Ex n = true -> exists s, render Tr n = Ok s /\ T s (ct n) /\ ends n s.
Proof.
  intros n e p r -> IH W. rewrite render_NCond. rewrite wf_cond in W. bools. kid IH e s E X D. rewrite E. cbn [rbind].
  assert (EN : forall t, ends (NCond e p r) t) by (intros t; apply ends_hi; cbn; auto; lia).
  assert (NE := ct_nonnil e ltac:(auto)).
  destruct (str_eqb (lower p) "between") eqn:B.
  - destruct r; try discriminate. bools. subst.
    destruct (bool_texts _ "and" r1 r2 IH) as ((t & A1 & A2) & _); auto; try (cbn [size]; lia); [cbn; tauto|].
    rewrite A1. cbn [rbind finish]. eexists. split; [reflexivity|]. split; auto. rewrite (upper_btw p) by auto. tk. unfold ct. rewrite up_cond.
    assert (B' : str_eqb (lower p) "between" = true) by (apply str_eqb_eq; auto). rewrite B'. cbn [up btw toks]. rewrite lower_upper, B'. nrm. rewrite (upper_btw p) by auto. reflexivity.
  - bools. kid IH r t E1 X1 D1. rewrite E1. cbn [rbind finish]. eexists. split; [reflexivity|]. split; auto. unfold ct. rewrite up_cond, B. cbn [toks].
    match goal with V : _ || _ = true |- _ => rename V into OR end. apply orb_true_iff in OR as [V|V]; bools.
    + destruct (mem p ["is not"; "not in"]) eqn:Hm.
      * rewrite B, Hm. apply mem_In in Hm. destruct Hm as [<-|[<-|[]]]; (tk; nrm; reflexivity).
      * rewrite lower_upper, B, up_mem_pred by auto. assert (U : upper p = p /\ In p ["="; ">"; "<"; "<="; ">="; "!="; "<>"; "<<"; ">>"; "&"; "^"; "#"; "|"; "||"; "+"; "-"; "*"; "/"]).
        { clear - V Hm. cbn in V. repeat (destruct V as [<-|V]; [first [discriminate Hm | split; [reflexivity|cbn; tauto]]|]). contradiction. }
        destruct U as [-> U]. nrm. apply T_op; auto. apply (ct_nonnil r); auto.
    + assert (Hm : mem p ["is not"; "not in"] = false).
      { apply mem_false. intros I. clear - V I. destruct I as [<-|[<-|[]]]; cbn in V; repeat (destruct V as [V|V]; [discriminate V|]); contradiction. }
      rewrite Hm, lower_upper, B, up_mem_pred by auto. assert (K := T_kw p _ V eq_refl). tk. nrm. reflexivity.
Qed.
Lemma call_lead : forall f, is_call f = true -> lvl f = 0 /\ is_number (lead f) = false.
Proof. intros f C. destruct f; try discriminate C; auto. Qed.
Lemma ge_exp : forall n, (forall x, size x < size n -> GA x) -> GE n.
Proof.
  intros n IH. destruct (is_paren n) eqn:P; [destruct n; try discriminate P; eapply ge_paren; eauto|].
  destruct (is_boolc n) eqn:Q; [destruct n; try discriminate Q; eapply ge_bool; eauto|].
  intros W. destruct n; try discriminate W; try discriminate P; try discriminate Q;
  try (apply ge_regular; [reflexivity|]).
  - (* NFun *) rewrite wf_fun in W. bools. kids IH args ss E F. rewrite render_NFun, E. cbn [rbind finish]. done_; [|split; intros; [apply call_l|apply call_r; auto]].
    eapply T_eq; [apply T_call; [apply ident_word; auto|exact F]|]. fin.
  - rewrite wf_cast in W. bools. kid IH n s E X D. rewrite render_NCast, E. cbn [rbind finish]. done_; [|split; intros; [dl|dr]].
    assert (K : T (upper ty) [upper ty]) by (apply T_ident; rewrite ident_upper; auto). tk. fin.
  - rewrite wf_count in W. bools. kids IH args ss E F. rewrite render_NCount, E. cbn [rbind finish]. done_; [|split; intros; [dl|dr]]. destruct distinct; (tk; [list_|fin]).
  - eapply ge_aggr; eauto.
  - rewrite wf_filtered in W. bools. kid IH n1 s E X D. kid IH n2 t E1 X1 D1. rewrite render_NFiltered, E, E1. cbn [rbind finish]. done_; [|split; intros; [dl|apply dotr_app; apply D]].
    + tk. fin.
    + left. rewrite (proj1 (call_lead n1 ltac:(auto))). lia.
    + apply call_lead. auto.
  - eapply ge_over; eauto.
  - (* NColumn *) rewrite render_NColumn. cbn [rbind finish]. cbn [wf] in W. done_.
    + apply orb_true_iff in W as [W|W]; [apply T_ident; rewrite ident_column; auto|]. bools. subst. fixed.
    + split; intros.
      * apply orb_true_iff in W as [W|W]; [apply dotl_ident; rewrite ident_column; auto|]. bools. subst. discriminate.
      * apply orb_true_iff in W as [W|W]; [apply dotr_ident; rewrite ident_column; auto|]. bools. subst. apply dotr_c. reflexivity.
  - rewrite wf_chained in W. bools. kid IH n1 s E X D. kid IH n2 t E1 X1 D1. rewrite render_NChained, E, E1. cbn [rbind finish]. done_.
    + eapply T_eq; [apply T_dot; [exact X|exact X1|apply D; auto|apply D1; auto]|fin].
      match goal with V : _ || _ = true |- _ => rename V into OR end. apply orb_true_iff in OR as [OR|OR]; [left; apply Nat.leb_le; auto|right; auto].
    + split; intros; [cbn in *; lia|]. apply dotr_app. apply D; auto; left; lia.
  - rewrite wf_datepart in W. bools. kid IH n s E X D. rewrite render_NDatePart, E. cbn [rbind finish]. done_; [|apply ends_hi; cbn; auto; lia].
    assert (K : T (upper part) [upper part]) by (eapply T_kw; [eassumption|reflexivity]). tk. fin.
  - cbn [wf] in W. destruct prefix; try discriminate W. bools. rewrite render_NString. cbn [rbind finish app]. done_.
    + eapply T_eq; [apply T_lit; auto|]. unfold ct. cbn [up toks]. destruct v; reflexivity.
    + match goal with V : In quotes QUOTES |- _ => rename V into IQ end. clear - IQ. assert (exists c, quotes = [c] /\ solid c = false) as (c & -> & S) by (cbn in IQ; destruct IQ as [<-|[<-|[<-|[]]]]; eexists; split; reflexivity).
      split; intros; [repeat apply dotl_app; apply dotl_c; auto|apply dotr_c; auto].
  - rewrite render_NInt. cbn [rbind finish]. done_; [apply T_int|]. split; intros; discriminate.
  - rename text into t. rewrite render_NFloat. cbn [rbind finish]. done_; [|split; intros; discriminate]. unfold ct. cbn [up toks]. cbn [wf] in W.
    assert (CS : (exists u, t = 45%N :: u) \/ (match t with 45%N :: t => [Id "-"; Id t] | _ => [Id t] end = [Id t] /\ match t with 45%N :: t => t | _ => t end = t)).
    { destruct t as [|c t]; auto. destruct (N.eq_dec c 45) as [->|NE]; [left; eauto|right]. destruct c as [|c]; auto. do 6 (destruct c as [c|c|]; auto). congruence. }
    destruct CS as [(u & ->)|[-> C2]].
    + change (T ("-" ++ u) (["-"] ++ [u])). apply T_app; [fixed|apply T_float; auto|jn].
    + rewrite C2 in W. apply T_float. auto.
  - rewrite render_NNull. cbn [rbind finish]. done_; [fixed|]. split; intros; [dl|]. apply (dotr_lit "NULL" []). reflexivity.
  - rewrite render_NBool. cbn [rbind finish]. done_; [destruct b; fixed|]. destruct b; (split; intros; [dl|]); [apply (dotr_lit "TRUE" [])|apply (dotr_lit "FALSE" [])]; reflexivity.
  - rewrite wf_array in W. kids IH args ss E F. rewrite render_NArray, E. cbn [rbind finish]. done_; [|split; intros; [dl|dr]]. tk; [list_|fin].
  - (* NAlias *) rewrite wf_alias in W. bools. kid IH n s E X D.
    assert (G : exists t, match alias with inl s => Ok s | inr x => render Tr x end = Ok t /\ T t (map canon (match (match alias with inl t => inl t | inr x => inr (up x) end) with inl t => [Id t] | inr x => toks x end))).
    { match goal with V : aliasok _ _ _ = true |- _ => unfold aliasok in V end. destruct alias as [t|x].
      - exists t. split; auto. apply T_ident. destruct with_as; [discriminate|auto].
      - assert (WX : wf Ex x = true) by (destruct with_as; bools; auto). kid IH x t E1 X1 D1. exists t. auto. }
    destruct G as (t & G1 & G2).
    assert (Z : T (s ++ (if with_as then " AS " else " ") ++ t) (ct (NAlias n alias with_as))) by (destruct with_as; (tk; fin)).
    split.
    + exists (s ++ (if with_as then " AS " else " ") ++ t). rewrite render_NAlias, E. cbn [rbind]. rewrite G1. cbn [rbind finish]. split; auto. split; auto. apply ends_hi; cbn; auto; lia.
    + intros _. exists (s ++ (if with_as then " AS " else " ") ++ t). rewrite render_NAlias, E. cbn [rbind]. rewrite G1. cbn [rbind finish]. auto.
  - rewrite wf_index in W. bools. kid IH n s E X D. kids IH indices ss E1 F. rewrite render_NIndex, E, E1. cbn [rbind finish]. done_.
    + tk; [list_|fin].
    + split; [intros; dl|]. cbn [lead]. intros _ L. apply dotr_app. apply D; auto. match goal with V : _ || _ = true |- _ => rename V into OR end. apply orb_true_iff in OR as [OR|OR]; [left; apply Nat.leb_le in OR; lia|right; auto].
  - rewrite wf_arith in W. bools. kid IH n1 s E X D. kid IH n2 t E1 X1 D1. rewrite render_NArith, !render_str, E, E1 by (auto; lia). cbn [rbind finish]. done_; [|apply ends_hi; cbn; auto; lia].
    eapply T_eq; [apply T_op; [exact X|exact X1|apply ct_nonnil; auto|apply ct_nonnil; auto|apply ariths_in; auto]|fin].
  - rewrite wf_bitwise in W. bools. kid IH n1 s E X D. kid IH n2 t E1 X1 D1. rewrite render_NBitwise, E, E1. cbn [rbind finish]. done_; [|apply ends_hi; cbn; auto; lia].
    eapply T_eq; [apply T_op; [exact X|exact X1|apply ct_nonnil; auto|apply ct_nonnil; auto|apply ops_in; auto]|fin].
  - eapply ge_cond; eauto.
  - rewrite wf_neg in W. bools. kid IH n s E X D. rewrite render_NNeg, E. cbn [rbind finish]. done_; [|apply ends_hi; cbn; auto; lia].
    destruct (is_paren n) eqn:PP.
    + destruct n; try discriminate PP. rewrite render_NParen in E. cbn zeta in E. destruct (rmap _ args) in E; [|discriminate]. cbn [rbind] in E. injection E as <-.
      eapply T_eq; [eapply T_app; [fixed|exact X|apply joint_r; reflexivity]|fin].
    + tk. fin.
  - rewrite wf_except in W. bools. kid IH n s E X D. kids IH args ss E1 F. rewrite render_NExcept, E. cbn [rbind]. rewrite E1. cbn [rbind].
    destruct (T_all s (ct n) "EXCEPT" ss args X eq_refl F) as (t & -> & TT); [eapply rmap_some; eauto|]. cbn [rbind finish]. done_; [|apply ends_hi; cbn; auto; lia]. eapply T_eq; [exact TT|fin].
  - rewrite wf_replace in W. bools. kid IH n s E X D. kids IH args ss E1 F. rewrite render_NReplace, E. cbn [rbind]. rewrite E1. cbn [rbind].
    destruct (T_all s (ct n) "REPLACE" ss args X eq_refl F) as (t & -> & TT); [eapply rmap_some; eauto|]. cbn [rbind finish]. done_; [|apply ends_hi; cbn; auto; lia]. eapply T_eq; [exact TT|fin].
  - eapply ge_case; eauto.
Qed.
