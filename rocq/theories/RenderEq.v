(** Equations of [render], one per class. *)
From Verif Require Import PyStr Ast Render.
Local Open Scope str_scope.
Local Open Scope list_scope.

Lemma render_NSelect : forall m exprs sel_all sel_distinct don from_ where_ group having order limit offset semi,
  render m (NSelect exprs sel_all sel_distinct don from_ where_ group having order limit offset semi) =
(    match m with
    | Str => py_repr (NSelect exprs sel_all sel_distinct don from_ where_ group having order limit offset semi)
    | _ =>
      d <- (if sel_all then Ok " ALL"
            else if sel_distinct then
              match don with
              | Some (x :: l) =>
                l <- rmap (render Str) (x :: l) ;; Ok (" DISTINCT ON (" ++ join ", " l ++ ")")
              | _ => Ok " DISTINCT"
              end
            else Ok "") ;;
      es <- rmap (render Tr) exprs ;;
      let e := match es with
               | [e] => " " ++ e
               | _ => nl ++ " " ++ join ("," ++ nl ++ " ") (map indent es)
               end in
      f <- (match from_ with
            | None => Ok ""
            | Some f =>
              t <- render Top f ;; Ok (nl ++ "FROM " ++ t)
            end) ;;
      w <- match where_ with
           | Some x => t <- render Clause x ;; Ok (nl ++ "WHERE" ++ t) | None => Ok "" end ;;
      g <- (match group with
            | Some (args, rollup, each) =>
              t <- (match args with
                    | [] => Err IndexError
                    | [a] => t <- render Tr a ;; Ok (" " ++ t)
                    | _ => l <- rmap (render Str) args ;;
                           Ok (indent (nl ++ join ("," ++ nl) l))
                    end) ;;
              Ok (nl ++ "GROUP " ++ (if each then "EACH " else "") ++ "BY"
                  ++ (if rollup then " ROLLUP" else "") ++ t)
            | None => Ok ""
            end) ;;
      h <- match having with
           | Some x => t <- render Clause x ;; Ok (nl ++ "HAVING" ++ t) | None => Ok "" end ;;
      o <- match order with
           | Some l => l <- rmap (render Str) l ;; t <- order_text true l ;;
                       Ok (nl ++ "ORDER BY" ++ t)
           | None => Ok "" end ;;
      l <- match limit with
           | Some (true, _) => Ok (nl ++ "LIMIT ALL")
           | Some (false, Some x) => t <- render Str x ;; Ok (nl ++ "LIMIT " ++ t)
           | Some (false, None) => Ok (nl ++ "LIMIT None")
           | None => Ok "" end ;;
      off <- match offset with
             | Some x => t <- render Str x ;; Ok (nl ++ "OFFSET " ++ t) | None => Ok "" end ;;
      let text := "SELECT" ++ d ++ e ++ f ++ w ++ g ++ h ++ o ++ l ++ off in
      let sub := " " ++ indent text in
      let top := text ++ (if semi then ";" else "") in
      Ok (match m with
          | Sub => sub
          | JoinSide => sub
          | Side k => side_wrap k true sub
          | _ => finish m top
          end)
    end).
Proof. reflexivity. Qed.
Lemma render_NParen : forall m args,
  render m (NParen args) =
(    let full :=
      l <- rmap (fun a => t <- render Sub a ;;
                          Ok (if is_select a then nl ++ t ++ nl else t)) args ;;
      Ok ("(" ++ join ", " l ++ ")") in
    match m with
    | Tr | Str | Sub => full
    | NL =>
      match args with
      | [] => Err IndexError
      | a :: _ =>
        t <- render Tr a ;;
        Ok (if has_nl t then "(" ++ nl ++ " " ++ indent t ++ nl ++ ")" else "(" ++ t ++ ")")
      end
    | Clause =>
      full <- full ;;
      if has_nl full then
        match args with [] => Err IndexError
        | a :: _ => t <- render Tr a ;; Ok (clause_paren full t) end
      else Ok (clause_paren full [])
    | When =>
      full <- full ;;
      if has_nl full then
        match args with [] => Err IndexError
        | a :: _ => t <- render Tr a ;; Ok (when_paren full t) end
      else Ok (when_paren full [])
    | Top | From =>
      match args with
      | [] => Err IndexError
      | a :: _ =>
        t <- render Sub a ;;
        Ok ("(" ++ nl ++ (if is_select a then t else " " ++ indent t) ++ nl ++ ")")
      end
    | JoinSide => match args with [] => Err IndexError | a :: _ => render (Side 1) a end
    | Side k => match args with [] => Err IndexError | a :: _ => render (Side (S k)) a end
    end).
Proof. reflexivity. Qed.
Lemma render_NBoolC : forall m ty l r,
  render m (NBoolC ty l r) =
(    match m with
    | Str => Err AttributeError
    | _ =>
      tl <- render Tr l ;; tr <- render Tr r ;;
      let flat := tl ++ " " ++ upper ty ++ " " ++ tr in
      t <- (if (length flat <? DEFAULT_LINE_LENGTH) && match m with NL => false | _ => true end
            then Ok flat
            else
              nl_ <- render NL l ;; nr <- render NL r ;;
              Ok (nl_ ++ nl ++ upper ty ++ " " ++ nr)) ;;
      Ok (finish m t)
    end).
Proof. reflexivity. Qed.
Lemma render_NAlias : forall m e a with_as,
  render m (NAlias e a with_as) =
(    match m with
    | Str => Err AttributeError
    | Top =>
      t <- render From e ;;
      a <- match a with inl s => Ok s | inr x => render Tr x end ;;
      Ok (t ++ (if with_as then " AS " else " ") ++ a)
    | JoinSide =>
      t <- render (Side 0) e ;;
      a <- match a with inl s => Ok s | inr x => render Str x end ;;
      Ok (t ++ (if with_as then " AS" else "") ++ " " ++ a)
    | _ =>
      t <- render Tr e ;;
      a <- match a with inl s => Ok s | inr x => render Tr x end ;;
      Ok (finish m (t ++ (if with_as then " AS " else " ") ++ a))
    end).
Proof. reflexivity. Qed.
Lemma render_NWith : forall m queries sel,
  render m (NWith queries sel) =
(    match m with
    | Str => Err AttributeError
    | _ =>
      qs <- rmap (fun q => if is_with (snd q) then Err TypeError
                           else t <- render Sub (snd q) ;;
                                Ok (fst q ++ " AS (" ++ nl ++ t ++ nl ++ ")")) queries ;;
      s <- render Tr sel ;;
      Ok (finish m ("WITH " ++ join ("," ++ nl) qs ++ nl ++ s))
    end).
Proof. reflexivity. Qed.
Lemma render_NOrderItem : forall m e asc desc,
  render m (NOrderItem e asc desc) =
(t <- (      t <- render Str e ;; Ok (t ++ if asc then " ASC" else if desc then " DESC" else "")) ;; Ok (finish m t)).
Proof. reflexivity. Qed.
Lemma render_NFun : forall m name args,
  render m (NFun name args) =
(t <- ( l <- rmap (render Tr) args ;; Ok (call_text name l)) ;; Ok (finish m t)).
Proof. reflexivity. Qed.
Lemma render_NCast : forall m col ty,
  render m (NCast col ty) =
(t <- (      t <- render Tr col ;; Ok ("CAST(" ++ t ++ " AS " ++ upper ty ++ ")")) ;; Ok (finish m t)).
Proof. reflexivity. Qed.
Lemma render_NCount : forall m args distinct,
  render m (NCount args distinct) =
(t <- (      l <- rmap (render Tr) args ;;
      Ok ("COUNT(" ++ (if distinct then "DISTINCT " else "") ++ join ", " l ++ ")")) ;; Ok (finish m t)).
Proof. reflexivity. Qed.
Lemma render_NArrayAgg : forall m col distinct ign resp order limit,
  render m (NArrayAgg col distinct ign resp order limit) =
(t <- (      c <- render Tr col ;;
      o <- match order with
           | Some l => l <- rmap (render Str) l ;; t <- order_text false l ;; Ok (" ORDER BY" ++ t)
           | None => Ok "" end ;;
      Ok ("ARRAY_AGG(" ++ (if distinct then "DISTINCT " else "") ++ c
          ++ (if ign then " IGNORE NULLS" else if resp then " RESPECT NULLS" else "") ++ o
          ++ match limit with
             | Some z => if Z.eqb z 0 then "" else " LIMIT " ++ str_of_Z z | None => "" end
          ++ ")")) ;; Ok (finish m t)).
Proof. reflexivity. Qed.
Lemma render_NFiltered : forall m f c,
  render m (NFiltered f c) =
(t <- (      f <- render Tr f ;; c <- render Tr c ;; Ok (f ++ " FILTER (WHERE " ++ c ++ ")")) ;; Ok (finish m t)).
Proof. reflexivity. Qed.
Lemma render_NAnalytics : forall m f partition order frame,
  render m (NAnalytics f partition order frame) =
(t <- (      f <- render Tr f ;;
      p <- match partition with
           | Some (x :: l) =>
             l <- rmap (render Tr) (x :: l) ;;
             Ok (nl ++ " PARTITION BY"
                 ++ match l with
                    | [t] => " " ++ t
                    | _ => nl ++ "  " ++ join ("," ++ nl ++ "  ") l end)
           | _ => Ok "" end ;;
      o <- match order with
           | Some l => l <- rmap (render Str) l ;; t <- order_text true l ;;
                       Ok (nl ++ " ORDER BY" ++ indent t)
           | None => Ok "" end ;;
      let s := f ++ " OVER (" ++ p ++ o in
      let s := match frame with
               | Some (rr, fr) =>
                 s ++ (if has_nl s then nl ++ " " else "") ++ upper rr ++ " " ++ upper fr
               | None => s end in
      Ok (s ++ if has_nl s then nl ++ ")" else ")")) ;; Ok (finish m t)).
Proof. reflexivity. Qed.
Lemma render_NColumn : forall m v,
  render m (NColumn v) =
(t <- ( Ok (column_text v)) ;; Ok (finish m t)).
Proof. reflexivity. Qed.
Lemma render_NChained : forall m l r,
  render m (NChained l r) =
(t <- ( l <- render Tr l ;; r <- render Tr r ;; Ok (l ++ "." ++ r)) ;; Ok (finish m t)).
Proof. reflexivity. Qed.
Lemma render_NType : forall m v,
  render m (NType v) =
(t <- ( Ok (upper v)) ;; Ok (finish m t)).
Proof. reflexivity. Qed.
Lemma render_NDatePart : forall m part e,
  render m (NDatePart part e) =
(t <- ( t <- render Tr e ;; Ok (upper part ++ " FROM " ++ t)) ;; Ok (finish m t)).
Proof. reflexivity. Qed.
Lemma render_NString : forall m v q p,
  render m (NString v q p) =
(t <- (      Ok (match p with Some p => p | None => [] end ++ q ++ v ++ q)) ;; Ok (finish m t)).
Proof. reflexivity. Qed.
Lemma render_NInt : forall m z,
  render m (NInt z) =
(t <- ( Ok (str_of_Z z)) ;; Ok (finish m t)).
Proof. reflexivity. Qed.
Lemma render_NFloat : forall m t,
  render m (NFloat t) =
(t <- ( Ok t) ;; Ok (finish m t)).
Proof. reflexivity. Qed.
Lemma render_NNull : forall m,
  render m (NNull) =
(t <- ( Ok "NULL") ;; Ok (finish m t)).
Proof. reflexivity. Qed.
Lemma render_NBool : forall m b,
  render m (NBool b) =
(t <- ( Ok (if b then "TRUE" else "FALSE")) ;; Ok (finish m t)).
Proof. reflexivity. Qed.
Lemma render_NArray : forall m args,
  render m (NArray args) =
(t <- ( l <- rmap (render Tr) args ;; Ok ("[" ++ join ", " l ++ "]")) ;; Ok (finish m t)).
Proof. reflexivity. Qed.
Lemma render_NIndex : forall m e l,
  render m (NIndex e l) =
(t <- (      t <- render Tr e ;; l <- rmap (render Tr) l ;; Ok (t ++ "[" ++ join ", " l ++ "]")) ;; Ok (finish m t)).
Proof. reflexivity. Qed.
Lemma render_NArith : forall m op l r,
  render m (NArith op l r) =
(t <- (      l <- render Str l ;; r <- render Str r ;; Ok (l ++ " " ++ op ++ " " ++ r)) ;; Ok (finish m t)).
Proof. reflexivity. Qed.
Lemma render_NBitwise : forall m e op r,
  render m (NBitwise e op r) =
(t <- (      e <- render Tr e ;; r <- render Tr r ;; Ok (e ++ " " ++ op ++ " " ++ r)) ;; Ok (finish m t)).
Proof. reflexivity. Qed.
Lemma render_NTable : forall m v brackets,
  render m (NTable v brackets) =
(t <- (      t <- render Tr v ;; Ok (if brackets then "[" ++ t ++ "]" else t)) ;; Ok (finish m t)).
Proof. reflexivity. Qed.
Lemma render_NUnnest : forall m e with_offset was alias,
  render m (NUnnest e with_offset was alias) =
(t <- (      t <- render Tr e ;;
      Ok (if with_offset then
            t ++ " WITH OFFSET"
              ++ match alias with
                 | Some (c :: a) => (if was then " AS" else "") ++ " " ++ c :: a
                 | _ => "" end
          else t)) ;; Ok (finish m t)).
Proof. reflexivity. Qed.
Lemma render_NJoin : forall m ty l r on_ using_,
  render m (NJoin ty l r on_ using_) =
(t <- (      tr <- render JoinSide r ;; tl <- render JoinSide l ;;
      c <- (match on_ with
            | Some x => t <- render Clause x ;; Ok (nl ++ "ON" ++ t)
            | None => match using_ with
                      | Some x => t <- render Clause x ;; Ok (nl ++ "USING" ++ t)
                      | None => Ok "" end
            end) ;;
      Ok (tl ++ (if str_eqb ty "," then "," else nl ++ upper ty) ++ " " ++ tr ++ c)) ;; Ok (finish m t)).
Proof. reflexivity. Qed.
Lemma render_NCombined : forall m op l r,
  render m (NCombined op l r) =
(t <- (      tl <- render Tr l ;; tr <- render Tr r ;;
      Ok (tl ++ nl ++ upper op ++ (if is_table r then " " else nl) ++ tr)) ;; Ok (finish m t)).
Proof. reflexivity. Qed.
Lemma render_NCond : forall m e p r,
  render m (NCond e p r) =
(t <- (      e <- render Tr e ;; r <- render Tr r ;; Ok (e ++ " " ++ upper p ++ " " ++ r)) ;; Ok (finish m t)).
Proof. reflexivity. Qed.
Lemma render_NNeg : forall m e,
  render m (NNeg e) =
(t <- (      t <- render Tr e ;; Ok ("NOT" ++ (if is_paren e then "" else " ") ++ t)) ;; Ok (finish m t)).
Proof. reflexivity. Qed.
Lemma render_NExcept : forall m e args,
  render m (NExcept e args) =
(t <- (      e <- render Tr e ;; l <- rmap (render Tr) args ;; select_all_text e "EXCEPT" l) ;; Ok (finish m t)).
Proof. reflexivity. Qed.
Lemma render_NReplace : forall m e args,
  render m (NReplace e args) =
(t <- (      e <- render Tr e ;; l <- rmap (render Tr) args ;; select_all_text e "REPLACE" l) ;; Ok (finish m t)).
Proof. reflexivity. Qed.
Lemma render_NCase : forall m e whens els,
  render m (NCase e whens els) =
(t <- (      e <- match e with Some x => t <- render Tr x ;; Ok (" " ++ t) | None => Ok "" end ;;
      ws <- rmap (fun wt => w <- render When (fst wt) ;; t <- render Str (snd wt) ;;
                            Ok ("WHEN" ++ w ++ "THEN " ++ t)) whens ;;
      el <- match els with
            | Some x => t <- render Tr x ;; Ok (nl ++ " ELSE " ++ t) | None => Ok "" end ;;
      Ok ("CASE" ++ e ++ nl ++ " " ++ join (nl ++ " ") ws ++ el ++ nl ++ "END")) ;; Ok (finish m t)).
Proof. reflexivity. Qed.
Ltac render_eq := first [ rewrite render_NSelect
  | rewrite render_NParen
  | rewrite render_NBoolC
  | rewrite render_NAlias
  | rewrite render_NWith
  | rewrite render_NOrderItem
  | rewrite render_NFun
  | rewrite render_NCast
  | rewrite render_NCount
  | rewrite render_NArrayAgg
  | rewrite render_NFiltered
  | rewrite render_NAnalytics
  | rewrite render_NColumn
  | rewrite render_NChained
  | rewrite render_NType
  | rewrite render_NDatePart
  | rewrite render_NString
  | rewrite render_NInt
  | rewrite render_NFloat
  | rewrite render_NNull
  | rewrite render_NBool
  | rewrite render_NArray
  | rewrite render_NIndex
  | rewrite render_NArith
  | rewrite render_NBitwise
  | rewrite render_NTable
  | rewrite render_NUnnest
  | rewrite render_NJoin
  | rewrite render_NCombined
  | rewrite render_NCond
  | rewrite render_NNeg
  | rewrite render_NExcept
  | rewrite render_NReplace
  | rewrite render_NCase ].
