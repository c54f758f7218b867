(** Statements of the fragment print into texts of their tokens; the whole printer on the fragment. *)
From Verif Require Import PyStr PyFloat Lib Digits AstLib Ast Tokeniser SpecTok ProofTok ProofTok2 ProofTok3 Grammar Scan GramTok GramExpr Render RenderEq LexText GramUp GramAlike GramText GramRender GramExp2 GramFrom.
Local Open Scope str_scope.
Local Open Scope list_scope.

Lemma TB_kw : forall g gt s ts, T g gt -> hdb g = true -> g <> [] -> lastb g = true -> T s ts -> TB (g ++ s) (gt ++ ts).
Proof. intros g gt s ts A B C D E. split; [apply T_app; auto using joint_l|]. destruct g; [congruence|exact B]. Qed.
Lemma TB_kb : forall g gt s ts, T g gt -> hdb g = true -> g <> [] -> TB s ts -> TB (g ++ s) (gt ++ ts).
Proof. intros g gt s ts A B C [D E]. split; [apply T_app; auto using joint_r|]. destruct g; [congruence|exact B]. Qed.
Ltac kb := eapply TB_kb; [fixed|reflexivity|discriminate|].
Ltac kk := eapply TB_kw; [fixed|reflexivity|discriminate|reflexivity|].
Lemma TB_eq : forall s ts ts', TB s ts -> ts = ts' -> TB s ts'.
Proof. intros; subst; auto. Qed.
Lemma gs_select : forall n exprs all d don from_ where_ group having order limit offset semi,
  n = NSelect exprs all d don from_ where_ group having order limit offset semi -> (forall x, size x < size n -> GA x) -> GS n.
Proof.
  intros n exprs all d don from_ where_ group having order limit offset semi EQ IH W m M. rewrite EQ in W. rewrite wf_select in W. bools. subst semi.
  assert (CH : children n = exprs ++ ollist don ++ olist from_ ++ olist where_ ++ match group with Some (l, _, _) => l | None => [] end ++ olist having ++ ollist order ++ match limit with Some (_, Some e) => [e] | _ => [] end ++ olist offset) by (rewrite EQ; reflexivity).
  (* DISTINCT *)
  assert (DT : exists t, (if all then Ok " ALL"
            else if d then
              match don with
              | Some (x :: l) => l <- rmap (render Str) (x :: l) ;; Ok (" DISTINCT ON (" ++ join ", " l ++ ")")
              | _ => Ok " DISTINCT"
              end
            else Ok "") = Ok t /\ TB t (map canon (if all then [Kw "all"]
        else if d then
          Kw "distinct" :: match option_map (map up) don with Some l => Kw "on" :: parens (commas (map toks l)) | None => [] end
        else []))).
  { destruct all; [eexists; split; [reflexivity|]; split; [fixed|reflexivity]|]. destruct d; [|exists []; split; auto using TB_nil].
    destruct don as [[|x l]|]; [cbn [donok] in *; discriminate| |eexists; split; [reflexivity|]; split; [fixed|reflexivity]]. cbn [donok] in *. bools.
    destruct (g_strs _ IH 3 (x :: l)) as (ss & E & F); [lia|rewrite CH; cbn [ollist]; intros y Y; apply in_or_app; right; apply in_or_app; left; auto|auto|].
    rewrite E. eexists. split; [reflexivity|]. split; [|reflexivity]. tk; [list_|]. clear - x. set (z := x :: l). clearbody z. unfold parens. cbn [option_map app map canon]. rewrite map_app, ct_list. reflexivity. }
  destruct DT as (dt & D1 & D2).
  (* expressions *)
  destruct (good_list Tr exprs) as (es & E1 & E2).
  { intros x X. match goal with V : forallb (upto 7) exprs = true |- _ => rewrite forallb_forall in V; specialize (V x X) end. bools. apply (g_tr _ IH); auto. rewrite CH. apply in_or_app. left. auto. }
  assert (ET : TB (match es with [e] => " " ++ e | _ => nl ++ " " ++ join ("," ++ nl ++ " ") (map indent es) end) (joint_toks [","] (map ct exprs))).
  { destruct es as [|e [|e' es]].
    - destruct exprs as [|x exprs]; [|inversion E2]. discriminate.
    - destruct exprs as [|x [|y exprs]]; inversion E2; subst; [|match goal with V : Forall2 T [] _ |- _ => inversion V end]. cbn [map joint_toks]. eapply TB_eq; [kk; eassumption|reflexivity].
    - split; [|reflexivity]. tk; [list_|reflexivity]. }
  (* FROM *)
  assert (FT : exists t, match from_ with None => Ok "" | Some f => t <- render Top f ;; Ok (nl ++ "FROM " ++ t) end = Ok t
     /\ TB t (map canon (match option_map up from_ with Some f => Kw "from" :: toks f | None => [] end))).
  { destruct from_ as [f|]; [|exists []; split; auto using TB_nil]. cbn [oall] in *. destruct (f_fr _ IH f Top) as (t & A & B); auto.
    { apply children_size. rewrite CH. cbn [olist]. repeat (apply in_or_app; first [left; left; reflexivity | right]). }
    rewrite A. eexists. split; [reflexivity|]. cbn [wrapm] in B. split; [tk; reflexivity|reflexivity]. }
  destruct FT as (ft & F1 & F2).
  assert (CT : forall k kt o, (o = where_ \/ o = having) -> oall condok o = true -> T k kt -> exists t, match o with Some x => t <- render Clause x ;; Ok (nl ++ k ++ t) | None => Ok "" end = Ok t
     /\ TB t (match option_map up o with Some f => kt ++ map canon (toks f) | None => [] end)).
  { intros k kt o O C K. destruct o as [x|]; [|exists []; split; auto using TB_nil]. cbn [oall] in *. destruct (f_cond _ IH x) as (t & A & B & B'); auto.
    { rewrite CH. destruct O as [<-|<-]; cbn [olist]; repeat (apply in_or_app; first [left; left; reflexivity | right]). }
    rewrite A. eexists. split; [reflexivity|]. split; [|reflexivity]. tk; [apply joint_r; auto|reflexivity]. }
  destruct (CT "WHERE" ["WHERE"] where_) as (wt & W1 & W2); auto; [fixed|]. destruct (CT "HAVING" ["HAVING"] having) as (ht & H1' & H2'); auto; [fixed|]. clear CT.
  assert (GT : exists t, match group with
            | Some (args, rollup, each) =>
              t <- (match args with
                    | [] => Err IndexError
                    | [a] => t <- render Tr a ;; Ok (" " ++ t)
                    | _ => l <- rmap (render Str) args ;;
                           Ok (indent (nl ++ join ("," ++ nl) l))
                    end) ;;
              Ok (nl ++ "GROUP " ++ (if each then "EACH " else "") ++ "BY"
                  ++ (if rollup then " ROLLUP" else "") ++ t)
            | None => Ok ""
            end = Ok t /\ TB t (map canon (match option_map (fun g => (map up (fst (fst g)), snd (fst g), snd g)) group with
       | Some (args, rollup, each) =>
         Kw "group" :: (if each then [Kw "each"] else []) ++ Kw "by" :: (if rollup then [Kw "rollup"] else [])
         ++ commas (map toks args)
       | None => [] end))).
  { destruct group as [[[args rollup] each]|]; [|exists []; split; auto using TB_nil]. cbn [groupok] in *. bools.
    assert (IN : incl args (children n)).
    { rewrite CH. intros y Y. repeat (apply in_or_app; first [left; exact Y | right]). }
    assert (AT : exists t, match args with
                    | [] => Err IndexError
                    | [a] => t <- render Tr a ;; Ok (" " ++ t)
                    | _ => l <- rmap (render Str) args ;;
                           Ok (indent (nl ++ join ("," ++ nl) l))
                    end = Ok t /\ TB t (joint_toks [","] (map ct args))).
    { destruct args as [|a [|b args]]; [discriminate| |].
      - match goal with V : forallb (upto 3) _ = true |- _ => cbn [forallb] in V end. bools. destruct (g_tr _ IH a) as (t & A & B); auto; [apply IN; left; auto|]. rewrite A. eexists. split; [reflexivity|]. cbn [map joint_toks]. eapply TB_eq; [kk; exact B|reflexivity].
      - destruct (g_strs _ IH 3 (a :: b :: args)) as (ss & E & F); auto. rewrite E. cbn [rbind]. eexists. split; [reflexivity|]. split; [|apply hdb_indent; reflexivity]. tk; [list_|reflexivity]. }
    destruct AT as (t & -> & A2). cbn [rbind]. eexists. split; [reflexivity|].
    split; [|reflexivity]. destruct A2 as [A2 A3]. cbn [option_map fst snd]. destruct each, rollup; (tk; [apply joint_r; auto|]); cbn [app map canon]; rewrite ct_list; reflexivity. }
  destruct GT as (gt & G1 & G2).
  assert (OT : exists t, match order with
           | Some l => l <- rmap (render Str) l ;; t <- order_text true l ;; Ok (nl ++ "ORDER BY" ++ t)
           | None => Ok "" end = Ok t /\ TB t (map canon (match option_map (map up) order with Some l => Kw "order" :: Kw "by" :: commas (map toks l) | None => [] end))).
  { destruct order as [os|]; [|exists []; split; auto using TB_nil]. cbn [oall] in *. destruct (g_items _ IH os) as (ss & A & B & C); auto.
    { rewrite CH. cbn [ollist]. intros y Y. repeat (apply in_or_app; first [left; exact Y | right]). }
    destruct (T_order true ss os B C) as (t & P & Q). rewrite A. cbn [rbind]. rewrite P. cbn [rbind]. eexists. split; [reflexivity|]. cbn [option_map]. destruct Q as [Q Q0]; split; [|reflexivity]. tk; [apply joint_r; auto|]. cbn [app map canon]. rewrite ct_list. reflexivity. }
  destruct OT as (ot & O1 & O2).
  assert (LT : exists t, match limit with
           | Some (true, _) => Ok (nl ++ "LIMIT ALL")
           | Some (false, Some x) => t <- render Str x ;; Ok (nl ++ "LIMIT " ++ t)
           | Some (false, None) => Ok (nl ++ "LIMIT None")
           | None => Ok "" end = Ok t /\ TB t (map canon (match option_map (fun l => (fst l, option_map up (snd l))) limit with
       | Some (true, _) => [Kw "limit"; Kw "all"]
       | Some (false, Some e) => Kw "limit" :: toks e
       | Some (false, None) => [Kw "limit"]
       | None => [] end))).
  { destruct limit as [[[|] [x|]]|]; try discriminate; [eexists; split; [reflexivity|]; split; [fixed|reflexivity]| |exists []; split; auto using TB_nil].
    cbn [limitok] in *. bools. destruct (g_str _ IH x) as (t & A & B); auto.
    { apply children_size. rewrite CH. repeat (apply in_or_app; first [left; left; reflexivity | right]). }
    rewrite A. cbn [rbind]. eexists. split; [reflexivity|]. split; [tk; reflexivity|reflexivity]. }
  destruct LT as (lt & L1 & L2).
  assert (OFT : exists t, match offset with Some x => t <- render Str x ;; Ok (nl ++ "OFFSET " ++ t) | None => Ok "" end = Ok t
     /\ TB t (map canon (match option_map up offset with Some f => Kw "offset" :: toks f | None => [] end))).
  { destruct offset as [x|]; [|exists []; split; auto using TB_nil]. cbn [oall] in *. bools. destruct (g_str _ IH x) as (t & A & B); auto.
    { apply children_size. rewrite CH. cbn [olist]. repeat (apply in_or_app; first [left; left; reflexivity | right]). left; auto. }
    rewrite A. cbn [rbind]. eexists. split; [reflexivity|]. split; [tk; reflexivity|reflexivity]. }
  destruct OFT as (oft & P1 & P2).
  assert (ALL : T ("SELECT" ++ dt ++ (match es with [e] => " " ++ e | _ => nl ++ " " ++ join ("," ++ nl ++ " ") (map indent es) end) ++ ft ++ wt ++ gt ++ ht ++ ot ++ lt ++ oft) (ct n)).
  { eapply T_eq; [eapply T_TB; [fixed|]; repeat (eapply TB_app; [eassumption|]); eassumption|]. rewrite EQ. unfold ct. cbn [up toks map]. rewrite !map_app, ct_list. cbn [map]. rewrite app_nil_r. 
    destruct where_, having; reflexivity. }
  clear CH. subst n. unfold Good. rewrite render_NSelect. rewrite D1, E1. cbn [rbind]. cbv zeta. rewrite F1. cbn [rbind]. rewrite W1. cbn [rbind]. rewrite G1. cbn [rbind]. rewrite H1'. cbn [rbind]. rewrite O1. cbn [rbind]. rewrite L1. cbn [rbind]. rewrite P1. cbn [rbind].
  rewrite app_nil_r. set (text := "SELECT" ++ _) in *.
  assert (SUB : T (" " ++ indent text) (ct (NSelect exprs all d don from_ where_ group having order limit offset false))) by (tk; reflexivity).
  destruct m; try congruence; eexists; (split; [reflexivity|]); auto; try (apply T_finish; exact ALL).
  apply T_side. auto.
Qed.
Lemma sel_not_with : forall q, is_sel q = true -> is_with q = false.
Proof. destruct q; auto; discriminate. Qed.
Lemma gs_with : forall n qs s, n = NWith qs s -> (forall x, size x < size n -> GA x) -> GS n.
Proof.
  intros n qs s -> IH W m M. rewrite wf_with in W. bools.
  assert (QT : exists ss, rmap (fun q : str * node => if is_with (snd q) then Err TypeError
                           else t <- render Sub (snd q) ;; Ok (fst q ++ " AS (" ++ nl ++ t ++ nl ++ ")")) qs = Ok ss
     /\ Forall2 T ss (map (fun q : str * node => fst q :: "AS" :: "(" :: ct (snd q) ++ [")"]) qs)).
  { assert (G := fun x SX WX => f_st _ IH x Sub SX WX ltac:(discriminate)).
    assert (SZ : forall q, In q qs -> size (snd q) < size (NWith qs s)).
    { intros q I. apply children_size. cbn [children]. apply in_or_app. left. apply in_map. auto. }
    match goal with V : forallb wqok qs = true |- _ => revert V end. clear IH. set (k := size (NWith qs s)) in *. clearbody k. revert SZ. generalize qs. intros l. induction l as [|q l I]; intros SZ V; [exists []; split; auto; constructor|].
    cbn [forallb] in V. apply andb_true_iff in V as [V1 V2]. destruct I as (ss & A & B); [intros; apply SZ; right; auto|auto|]. unfold wqok in V1. bools.
    destruct (G (snd q))  as (t & E & X); auto; [apply SZ; left; auto|]. cbn [wrapm] in X.
    assert (NW := sel_not_with (snd q) ltac:(auto)).
    assert (I : T (fst q) [fst q]) by (apply T_ident; auto).
    eexists. split; [cbn [rmap]; rewrite NW, E; cbn [rbind]; rewrite A; reflexivity|]. cbn [map]. constructor; auto. tk. nrm. reflexivity. }
  destruct QT as (ss & Q1 & Q2). destruct (f_st _ IH s Tr) as (t & E & X); auto; [apply children_size; cbn [children]; apply in_or_app; right; left; auto|discriminate|]. cbn [wrapm] in X.
  assert (Z : T ("WITH " ++ join ("," ++ nl) ss ++ nl ++ t) (ct (NWith qs s))).
  { tk; [list_|]. unfold ct at 3. cbn [up toks map]. rewrite map_app, map_commas, !map_map. cbn [app canon]. f_equal. f_equal. f_equal. apply map_ext. intros q. unfold ct, parens. cbn [fst snd map canon]. rewrite map_app. reflexivity. }
  exists (finish m ("WITH " ++ join ("," ++ nl) ss ++ nl ++ t)). split; [|apply T_finish; exact Z]. rewrite render_NWith.
  transitivity (qs' <- Ok ss ;; s' <- Ok t ;; Ok (finish m ("WITH " ++ join ("," ++ nl) qs' ++ nl ++ s'))); [|reflexivity]. rewrite <- Q1, <- E. destruct m; try congruence; reflexivity.
Qed.
Lemma good_all : forall n, GA n.
Proof.
  intros n. remember (size n) as k eqn:K. revert n K. induction k as [k IH] using lt_wf_ind. intros n ->.
  assert (IH' : forall x, size x < size n -> GA x) by (intros x S; eapply IH; eauto).
  split; [apply ge_exp; auto|]. split; [|apply gf_all; auto].
  destruct n; try (intros W; discriminate W); [eapply gs_select; eauto|eapply gs_with; eauto].
Qed.
