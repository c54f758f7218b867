(** Equations of [crender], and: its result is that of [render]. *)
From Verif Require Import PyStr Lib AstLib Ast Render RenderEq Cost.
Local Open Scope str_scope.
Local Open Scope list_scope.

Lemma crender_NSelect : forall m exprs sel_all sel_distinct don from_ where_ group having order limit offset semi,
  crender m (NSelect exprs sel_all sel_distinct don from_ where_ group having order limit offset semi) =
tick (    match m with
    | Str => lift (py_repr (NSelect exprs sel_all sel_distinct don from_ where_ group having order limit offset semi))
    | _ =>
      d <~ (if sel_all then cret " ALL"
            else if sel_distinct then
              match don with
              | Some (x :: l) =>
                l <~ cmap (crender Str) (x :: l) ;; cret (" DISTINCT ON (" ++ join ", " l ++ ")")
              | _ => cret " DISTINCT"
              end
            else cret "") ;;
      es <~ cmap (crender Tr) exprs ;;
      let e := match es with
               | [e] => " " ++ e
               | _ => nl ++ " " ++ join ("," ++ nl ++ " ") (map indent es)
               end in
      f <~ (match from_ with
            | None => cret ""
            | Some f =>
              t <~ crender Top f ;; cret (nl ++ "FROM " ++ t)
            end) ;;
      w <~ match where_ with
           | Some x => t <~ crender Clause x ;; cret (nl ++ "WHERE" ++ t) | None => cret "" end ;;
      g <~ (match group with
            | Some (args, rollup, each) =>
              t <~ (match args with
                    | [] => cerr IndexError
                    | [a] => t <~ crender Tr a ;; cret (" " ++ t)
                    | _ => l <~ cmap (crender Str) args ;;
                           cret (indent (nl ++ join ("," ++ nl) l))
                    end) ;;
              cret (nl ++ "GROUP " ++ (if each then "EACH " else "") ++ "BY"
                  ++ (if rollup then " ROLLUP" else "") ++ t)
            | None => cret ""
            end) ;;
      h <~ match having with
           | Some x => t <~ crender Clause x ;; cret (nl ++ "HAVING" ++ t) | None => cret "" end ;;
      o <~ match order with
           | Some l => l <~ cmap (crender Str) l ;; t <~ lift (order_text true l) ;;
                       cret (nl ++ "ORDER BY" ++ t)
           | None => cret "" end ;;
      l <~ match limit with
           | Some (true, _) => cret (nl ++ "LIMIT ALL")
           | Some (false, Some x) => t <~ crender Str x ;; cret (nl ++ "LIMIT " ++ t)
           | Some (false, None) => cret (nl ++ "LIMIT None")
           | None => cret "" end ;;
      off <~ match offset with
             | Some x => t <~ crender Str x ;; cret (nl ++ "OFFSET " ++ t) | None => cret "" end ;;
      let text := "SELECT" ++ d ++ e ++ f ++ w ++ g ++ h ++ o ++ l ++ off in
      let sub := " " ++ indent text in
      let top := text ++ (if semi then ";" else "") in
      cret (match m with
          | Sub => sub
          | JoinSide => sub
          | Side k => side_wrap k true sub
          | _ => finish m top
          end)
    end).
Proof. reflexivity. Qed.
Lemma crender_NParen : forall m args,
  crender m (NParen args) =
tick (    let full :=
      l <~ cmap (fun a => t <~ crender Sub a ;;
                          cret (if is_select a then nl ++ t ++ nl else t)) args ;;
      cret ("(" ++ join ", " l ++ ")") in
    match m with
    | Tr | Str | Sub => full
    | NL =>
      match args with
      | [] => cerr IndexError
      | a :: _ =>
        t <~ crender Tr a ;;
        cret (if has_nl t then "(" ++ nl ++ " " ++ indent t ++ nl ++ ")" else "(" ++ t ++ ")")
      end
    | Clause =>
      full <~ full ;;
      if has_nl full then
        match args with [] => cerr IndexError
        | a :: _ => t <~ crender Tr a ;; cret (clause_paren full t) end
      else cret (clause_paren full [])
    | When =>
      full <~ full ;;
      if has_nl full then
        match args with [] => cerr IndexError
        | a :: _ => t <~ crender Tr a ;; cret (when_paren full t) end
      else cret (when_paren full [])
    | Top | From =>
      match args with
      | [] => cerr IndexError
      | a :: _ =>
        t <~ crender Sub a ;;
        cret ("(" ++ nl ++ (if is_select a then t else " " ++ indent t) ++ nl ++ ")")
      end
    | JoinSide => match args with [] => cerr IndexError | a :: _ => crender (Side 1) a end
    | Side k => match args with [] => cerr IndexError | a :: _ => crender (Side (S k)) a end
    end).
Proof. reflexivity. Qed.
Lemma crender_NBoolC : forall m ty l r,
  crender m (NBoolC ty l r) =
tick (    match m with
    | Str => cerr AttributeError
    | _ =>
      tl <~ crender Tr l ;; tr <~ crender Tr r ;;
      let flat := tl ++ " " ++ upper ty ++ " " ++ tr in
      t <~ (if (length flat <? DEFAULT_LINE_LENGTH) && match m with NL => false | _ => true end
            then cret flat
            else
              nl_ <~ crender NL l ;; nr <~ crender NL r ;;
              cret (nl_ ++ nl ++ upper ty ++ " " ++ nr)) ;;
      cret (finish m t)
    end).
Proof. reflexivity. Qed.
Lemma crender_NAlias : forall m e a with_as,
  crender m (NAlias e a with_as) =
tick (    match m with
    | Str => cerr AttributeError
    | Top =>
      t <~ crender From e ;;
      a <~ match a with inl s => cret s | inr x => crender Tr x end ;;
      cret (t ++ (if with_as then " AS " else " ") ++ a)
    | JoinSide =>
      t <~ crender (Side 0) e ;;
      a <~ match a with inl s => cret s | inr x => crender Str x end ;;
      cret (t ++ (if with_as then " AS" else "") ++ " " ++ a)
    | _ =>
      t <~ crender Tr e ;;
      a <~ match a with inl s => cret s | inr x => crender Tr x end ;;
      cret (finish m (t ++ (if with_as then " AS " else " ") ++ a))
    end).
Proof. reflexivity. Qed.
Lemma crender_NWith : forall m queries sel,
  crender m (NWith queries sel) =
tick (    match m with
    | Str => cerr AttributeError
    | _ =>
      qs <~ cmap (fun q => if is_with (snd q) then cerr TypeError
                           else t <~ crender Sub (snd q) ;;
                                cret (fst q ++ " AS (" ++ nl ++ t ++ nl ++ ")")) queries ;;
      s <~ crender Tr sel ;;
      cret (finish m ("WITH " ++ join ("," ++ nl) qs ++ nl ++ s))
    end).
Proof. reflexivity. Qed.
Lemma crender_NOrderItem : forall m e asc desc,
  crender m (NOrderItem e asc desc) =
tick (t <~ (      t <~ crender Str e ;; cret (t ++ if asc then " ASC" else if desc then " DESC" else "")) ;; cret (finish m t)).
Proof. reflexivity. Qed.
Lemma crender_NFun : forall m name args,
  crender m (NFun name args) =
tick (t <~ ( l <~ cmap (crender Tr) args ;; cret (call_text name l)) ;; cret (finish m t)).
Proof. reflexivity. Qed.
Lemma crender_NCast : forall m col ty,
  crender m (NCast col ty) =
tick (t <~ (      t <~ crender Tr col ;; cret ("CAST(" ++ t ++ " AS " ++ upper ty ++ ")")) ;; cret (finish m t)).
Proof. reflexivity. Qed.
Lemma crender_NCount : forall m args distinct,
  crender m (NCount args distinct) =
tick (t <~ (      l <~ cmap (crender Tr) args ;;
      cret ("COUNT(" ++ (if distinct then "DISTINCT " else "") ++ join ", " l ++ ")")) ;; cret (finish m t)).
Proof. reflexivity. Qed.
Lemma crender_NArrayAgg : forall m col distinct ign resp order limit,
  crender m (NArrayAgg col distinct ign resp order limit) =
tick (t <~ (      c <~ crender Tr col ;;
      o <~ match order with
           | Some l => l <~ cmap (crender Str) l ;; t <~ lift (order_text false l) ;; cret (" ORDER BY" ++ t)
           | None => cret "" end ;;
      cret ("ARRAY_AGG(" ++ (if distinct then "DISTINCT " else "") ++ c
          ++ (if ign then " IGNORE NULLS" else if resp then " RESPECT NULLS" else "") ++ o
          ++ match limit with
             | Some z => if Z.eqb z 0 then "" else " LIMIT " ++ str_of_Z z | None => "" end
          ++ ")")) ;; cret (finish m t)).
Proof. reflexivity. Qed.
Lemma crender_NFiltered : forall m f c,
  crender m (NFiltered f c) =
tick (t <~ (      f <~ crender Tr f ;; c <~ crender Tr c ;; cret (f ++ " FILTER (WHERE " ++ c ++ ")")) ;; cret (finish m t)).
Proof. reflexivity. Qed.
Lemma crender_NAnalytics : forall m f partition order frame,
  crender m (NAnalytics f partition order frame) =
tick (t <~ (      f <~ crender Tr f ;;
      p <~ match partition with
           | Some (x :: l) =>
             l <~ cmap (crender Tr) (x :: l) ;;
             cret (nl ++ " PARTITION BY"
                 ++ match l with
                    | [t] => " " ++ t
                    | _ => nl ++ "  " ++ join ("," ++ nl ++ "  ") l end)
           | _ => cret "" end ;;
      o <~ match order with
           | Some l => l <~ cmap (crender Str) l ;; t <~ lift (order_text true l) ;;
                       cret (nl ++ " ORDER BY" ++ indent t)
           | None => cret "" end ;;
      let s := f ++ " OVER (" ++ p ++ o in
      let s := match frame with
               | Some (rr, fr) =>
                 s ++ (if has_nl s then nl ++ " " else "") ++ upper rr ++ " " ++ upper fr
               | None => s end in
      cret (s ++ if has_nl s then nl ++ ")" else ")")) ;; cret (finish m t)).
Proof. reflexivity. Qed.
Lemma crender_NColumn : forall m v,
  crender m (NColumn v) =
tick (t <~ ( cret (column_text v)) ;; cret (finish m t)).
Proof. reflexivity. Qed.
Lemma crender_NChained : forall m l r,
  crender m (NChained l r) =
tick (t <~ ( l <~ crender Tr l ;; r <~ crender Tr r ;; cret (l ++ "." ++ r)) ;; cret (finish m t)).
Proof. reflexivity. Qed.
Lemma crender_NType : forall m v,
  crender m (NType v) =
tick (t <~ ( cret (upper v)) ;; cret (finish m t)).
Proof. reflexivity. Qed.
Lemma crender_NDatePart : forall m part e,
  crender m (NDatePart part e) =
tick (t <~ ( t <~ crender Tr e ;; cret (upper part ++ " FROM " ++ t)) ;; cret (finish m t)).
Proof. reflexivity. Qed.
Lemma crender_NString : forall m v q p,
  crender m (NString v q p) =
tick (t <~ (      cret (match p with Some p => p | None => [] end ++ q ++ v ++ q)) ;; cret (finish m t)).
Proof. reflexivity. Qed.
Lemma crender_NInt : forall m z,
  crender m (NInt z) =
tick (t <~ ( cret (str_of_Z z)) ;; cret (finish m t)).
Proof. reflexivity. Qed.
Lemma crender_NFloat : forall m t,
  crender m (NFloat t) =
tick (t <~ ( cret t) ;; cret (finish m t)).
Proof. reflexivity. Qed.
Lemma crender_NNull : forall m,
  crender m (NNull) =
tick (t <~ ( cret "NULL") ;; cret (finish m t)).
Proof. reflexivity. Qed.
Lemma crender_NBool : forall m b,
  crender m (NBool b) =
tick (t <~ ( cret (if b then "TRUE" else "FALSE")) ;; cret (finish m t)).
Proof. reflexivity. Qed.
Lemma crender_NArray : forall m args,
  crender m (NArray args) =
tick (t <~ ( l <~ cmap (crender Tr) args ;; cret ("[" ++ join ", " l ++ "]")) ;; cret (finish m t)).
Proof. reflexivity. Qed.
Lemma crender_NIndex : forall m e l,
  crender m (NIndex e l) =
tick (t <~ (      t <~ crender Tr e ;; l <~ cmap (crender Tr) l ;; cret (t ++ "[" ++ join ", " l ++ "]")) ;; cret (finish m t)).
Proof. reflexivity. Qed.
Lemma crender_NArith : forall m op l r,
  crender m (NArith op l r) =
tick (t <~ (      l <~ crender Str l ;; r <~ crender Str r ;; cret (l ++ " " ++ op ++ " " ++ r)) ;; cret (finish m t)).
Proof. reflexivity. Qed.
Lemma crender_NBitwise : forall m e op r,
  crender m (NBitwise e op r) =
tick (t <~ (      e <~ crender Tr e ;; r <~ crender Tr r ;; cret (e ++ " " ++ op ++ " " ++ r)) ;; cret (finish m t)).
Proof. reflexivity. Qed.
Lemma crender_NTable : forall m v brackets,
  crender m (NTable v brackets) =
tick (t <~ (      t <~ crender Tr v ;; cret (if brackets then "[" ++ t ++ "]" else t)) ;; cret (finish m t)).
Proof. reflexivity. Qed.
Lemma crender_NUnnest : forall m e with_offset was alias,
  crender m (NUnnest e with_offset was alias) =
tick (t <~ (      t <~ crender Tr e ;;
      cret (if with_offset then
            t ++ " WITH OFFSET"
              ++ match alias with
                 | Some (c :: a) => (if was then " AS" else "") ++ " " ++ c :: a
                 | _ => "" end
          else t)) ;; cret (finish m t)).
Proof. reflexivity. Qed.
Lemma crender_NJoin : forall m ty l r on_ using_,
  crender m (NJoin ty l r on_ using_) =
tick (t <~ (      tr <~ crender JoinSide r ;; tl <~ crender JoinSide l ;;
      c <~ (match on_ with
            | Some x => t <~ crender Clause x ;; cret (nl ++ "ON" ++ t)
            | None => match using_ with
                      | Some x => t <~ crender Clause x ;; cret (nl ++ "USING" ++ t)
                      | None => cret "" end
            end) ;;
      cret (tl ++ (if str_eqb ty "," then "," else nl ++ upper ty) ++ " " ++ tr ++ c)) ;; cret (finish m t)).
Proof. reflexivity. Qed.
Lemma crender_NCombined : forall m op l r,
  crender m (NCombined op l r) =
tick (t <~ (      tl <~ crender Tr l ;; tr <~ crender Tr r ;;
      cret (tl ++ nl ++ upper op ++ (if is_table r then " " else nl) ++ tr)) ;; cret (finish m t)).
Proof. reflexivity. Qed.
Lemma crender_NCond : forall m e p r,
  crender m (NCond e p r) =
tick (t <~ (      e <~ crender Tr e ;; r <~ crender Tr r ;; cret (e ++ " " ++ upper p ++ " " ++ r)) ;; cret (finish m t)).
Proof. reflexivity. Qed.
Lemma crender_NNeg : forall m e,
  crender m (NNeg e) =
tick (t <~ (      t <~ crender Tr e ;; cret ("NOT" ++ (if is_paren e then "" else " ") ++ t)) ;; cret (finish m t)).
Proof. reflexivity. Qed.
Lemma crender_NExcept : forall m e args,
  crender m (NExcept e args) =
tick (t <~ (      e <~ crender Tr e ;; l <~ cmap (crender Tr) args ;; lift (select_all_text e "EXCEPT" l)) ;; cret (finish m t)).
Proof. reflexivity. Qed.
Lemma crender_NReplace : forall m e args,
  crender m (NReplace e args) =
tick (t <~ (      e <~ crender Tr e ;; l <~ cmap (crender Tr) args ;; lift (select_all_text e "REPLACE" l)) ;; cret (finish m t)).
Proof. reflexivity. Qed.
Lemma crender_NCase : forall m e whens els,
  crender m (NCase e whens els) =
tick (t <~ (      e <~ match e with Some x => t <~ crender Tr x ;; cret (" " ++ t) | None => cret "" end ;;
      ws <~ cmap (fun wt => w <~ crender When (fst wt) ;; t <~ crender Str (snd wt) ;;
                            cret ("WHEN" ++ w ++ "THEN " ++ t)) whens ;;
      el <~ match els with
            | Some x => t <~ crender Tr x ;; cret (nl ++ " ELSE " ++ t) | None => cret "" end ;;
      cret ("CASE" ++ e ++ nl ++ " " ++ join (nl ++ " ") ws ++ el ++ nl ++ "END")) ;; cret (finish m t)).
Proof. reflexivity. Qed.
Ltac crender_eq := first [ rewrite crender_NSelect
  | rewrite crender_NParen
  | rewrite crender_NBoolC
  | rewrite crender_NAlias
  | rewrite crender_NWith
  | rewrite crender_NOrderItem
  | rewrite crender_NFun
  | rewrite crender_NCast
  | rewrite crender_NCount
  | rewrite crender_NArrayAgg
  | rewrite crender_NFiltered
  | rewrite crender_NAnalytics
  | rewrite crender_NColumn
  | rewrite crender_NChained
  | rewrite crender_NType
  | rewrite crender_NDatePart
  | rewrite crender_NString
  | rewrite crender_NInt
  | rewrite crender_NFloat
  | rewrite crender_NNull
  | rewrite crender_NBool
  | rewrite crender_NArray
  | rewrite crender_NIndex
  | rewrite crender_NArith
  | rewrite crender_NBitwise
  | rewrite crender_NTable
  | rewrite crender_NUnnest
  | rewrite crender_NJoin
  | rewrite crender_NCombined
  | rewrite crender_NCond
  | rewrite crender_NNeg
  | rewrite crender_NExcept
  | rewrite crender_NReplace
  | rewrite crender_NCase ].

Lemma bind_eq : forall {A B} (a : C A) (b : R A) (f : A -> C B) (g : A -> R B), fst a = b -> (forall x, fst (f x) = g x) -> fst (cbind a f) = rbind b g.
Proof. intros A B [r k] b f g E F. cbn [fst] in E. subst r. destruct b as [x|e]; cbn [cbind rbind]; auto. specialize (F x). destruct (f x). exact F. Qed.
Lemma tick_eq : forall {A} (a : C A), fst (tick a) = fst a.
Proof. intros A [r k]. reflexivity. Qed.
Lemma cmap_eq : forall {A B} (f : A -> C B) (g : A -> R B) l, (forall x, In x l -> fst (f x) = g x) -> fst (cmap f l) = rmap g l.
Proof.
  intros A B f g l. induction l as [|x l IH]; intros H; [reflexivity|]. change (fst (y <~ f x ;; ys <~ cmap f l ;; cret (y :: ys)) = (y <- g x ;; ys <- rmap g l ;; Ok (y :: ys))).
  apply bind_eq; [apply H; left; auto|]. intros y. apply bind_eq; [apply IH; intros; apply H; right; auto|]. reflexivity.
Qed.
Ltac kin := try match goal with I : In ?x _ |- In (snd ?x) _ => apply (in_map snd) in I | I : In ?x _ |- In (fst ?x) _ => apply (in_map fst) in I end;
  cbn [children olist ollist map]; repeat first [rewrite in_app_iff | progress cbn [In]];
  repeat match goal with I : In _ (_ :: _) |- _ => cbn [In] in I end; tauto.
Ltac er IH := repeat first
  [ reflexivity
  | rewrite tick_eq
  | apply IH; kin
  | apply bind_eq; [|intros]
  | apply cmap_eq; intros
  | match goal with
    | |- fst (if ?b then _ else _) = _ => destruct b
    | |- fst (match ?x with _ => _ end) = _ => is_var x; destruct x
    end ].
Lemma crender_text : forall n m, fst (crender m n) = render m n.
Proof.
  intros n. induction n as [n IH] using node_ind'. intros m. destruct n.
  - rewrite crender_NSelect, render_NSelect. cbv zeta. er IH.
  - rewrite crender_NWith, render_NWith. cbv zeta. er IH.
  - rewrite crender_NOrderItem, render_NOrderItem. cbv zeta. er IH.
  - rewrite crender_NFun, render_NFun. cbv zeta. er IH.
  - rewrite crender_NCast, render_NCast. cbv zeta. er IH.
  - rewrite crender_NCount, render_NCount. cbv zeta. er IH.
  - rewrite crender_NArrayAgg, render_NArrayAgg. cbv zeta. er IH.
  - rewrite crender_NFiltered, render_NFiltered. cbv zeta. er IH.
  - rewrite crender_NAnalytics, render_NAnalytics. cbv zeta. er IH.
  - rewrite crender_NColumn, render_NColumn. cbv zeta. er IH.
  - rewrite crender_NChained, render_NChained. cbv zeta. er IH.
  - rewrite crender_NType, render_NType. cbv zeta. er IH.
  - rewrite crender_NDatePart, render_NDatePart. cbv zeta. er IH.
  - rewrite crender_NString, render_NString. cbv zeta. er IH.
  - rewrite crender_NInt, render_NInt. cbv zeta. er IH.
  - rewrite crender_NFloat, render_NFloat. cbv zeta. er IH.
  - rewrite crender_NNull, render_NNull. cbv zeta. er IH.
  - rewrite crender_NBool, render_NBool. cbv zeta. er IH.
  - rewrite crender_NParen, render_NParen. cbv zeta. er IH.
  - rewrite crender_NArray, render_NArray. cbv zeta. er IH.
  - rewrite crender_NAlias, render_NAlias. cbv zeta. er IH.
  - rewrite crender_NIndex, render_NIndex. cbv zeta. er IH.
  - rewrite crender_NArith, render_NArith. cbv zeta. er IH.
  - rewrite crender_NBitwise, render_NBitwise. cbv zeta. er IH.
  - rewrite crender_NTable, render_NTable. cbv zeta. er IH.
  - rewrite crender_NUnnest, render_NUnnest. cbv zeta. er IH.
  - rewrite crender_NJoin, render_NJoin. cbv zeta. er IH.
  - rewrite crender_NCombined, render_NCombined. cbv zeta. er IH.
  - rewrite crender_NCond, render_NCond. cbv zeta. er IH.
  - rewrite crender_NBoolC, render_NBoolC. cbv zeta. er IH.
  - rewrite crender_NNeg, render_NNeg. cbv zeta. er IH.
  - rewrite crender_NExcept, render_NExcept. cbv zeta. er IH.
  - rewrite crender_NReplace, render_NReplace. cbv zeta. er IH.
  - rewrite crender_NCase, render_NCase. cbv zeta. er IH.
Qed.
