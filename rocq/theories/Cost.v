(** The printer of Render.v with a count of the calls of [transform] and [str]: the same text, clause by
    clause, in a monad that counts.  One call is counted for each node turned into text; a node that is turned
    into text again is counted again.  [CostLib.crender_text] shows that the result is that of [render]. *)
From Verif Require Import PyStr Ast Render.
Local Open Scope str_scope.
Local Open Scope list_scope.

Definition C (A : Type) : Type := (R A * nat)%type.
Definition cret {A} (x : A) : C A := (Ok x, 0).
Definition cerr {A} (e : exn) : C A := (Err e, 0).
Definition lift {A} (r : R A) : C A := (r, 0).
Definition cbind {A B} (a : C A) (f : A -> C B) : C B :=
  match a with
  | (Ok x, k) => match f x with (r, k') => (r, k + k') end
  | (Err e, k) => (Err e, k)
  end.
Definition tick {A} (a : C A) : C A := match a with (r, k) => (r, S k) end.
Notation "x <~ e ;; f" := (cbind e (fun x => f)) (at level 61, e at next level, right associativity).
Definition cmap {A B} (f : A -> C B) : list A -> C (list B) :=
  fix go l :=
    match l with
    | [] => cret []
    | x :: r => y <~ f x ;; ys <~ go r ;; cret (y :: ys)
    end.

Fixpoint crender (m : mode) (n : node) {struct n} : C str :=
  tick match n with
  | NSelect exprs sel_all sel_distinct don from_ where_ group having order limit offset semi =>
    match m with
    | Str => lift (py_repr n)                               (* object.__str__ is __repr__ *)
    | _ =>
      (* sql.py:53-124 SelectStatement.transform *)
      d <~ (if sel_all then cret " ALL"
            else if sel_distinct then
              match don with
              | Some (x :: l) =>
                l <~ cmap (crender Str) (x :: l) ;; cret (" DISTINCT ON (" ++ join ", " l ++ ")")
              | _ => cret " DISTINCT"
              end
            else cret "") ;;
      es <~ cmap (crender Tr) exprs ;;
      let e := match es with
               | [e] => " " ++ e
               | _ => nl ++ " " ++ join ("," ++ nl ++ " ") (map indent es)
               end in
      f <~ (match from_ with
            | None => cret ""
            | Some f =>
              t <~ crender Top f ;; cret (nl ++ "FROM " ++ t)
            end) ;;
      w <~ match where_ with
           | Some x => t <~ crender Clause x ;; cret (nl ++ "WHERE" ++ t) | None => cret "" end ;;
      g <~ (match group with
            | Some (args, rollup, each) =>           (* GroupByClause.__str__, 292-301 *)
              t <~ (match args with
                    | [] => cerr IndexError
                    | [a] => t <~ crender Tr a ;; cret (" " ++ t)
                    | _ => l <~ cmap (crender Str) args ;;
                           cret (indent (nl ++ join ("," ++ nl) l))
                    end) ;;
              cret (nl ++ "GROUP " ++ (if each then "EACH " else "") ++ "BY"
                  ++ (if rollup then " ROLLUP" else "") ++ t)
            | None => cret ""
            end) ;;
      h <~ match having with
           | Some x => t <~ crender Clause x ;; cret (nl ++ "HAVING" ++ t) | None => cret "" end ;;
      o <~ match order with
           | Some l => l <~ cmap (crender Str) l ;; t <~ lift (order_text true l) ;;
                       cret (nl ++ "ORDER BY" ++ t)
           | None => cret "" end ;;
      l <~ match limit with
           | Some (true, _) => cret (nl ++ "LIMIT ALL")
           | Some (false, Some x) => t <~ crender Str x ;; cret (nl ++ "LIMIT " ++ t)
           | Some (false, None) => cret (nl ++ "LIMIT None")
           | None => cret "" end ;;
      off <~ match offset with
             | Some x => t <~ crender Str x ;; cret (nl ++ "OFFSET " ++ t) | None => cret "" end ;;
      let text := "SELECT" ++ d ++ e ++ f ++ w ++ g ++ h ++ o ++ l ++ off in
      let sub := " " ++ indent text in
      let top := text ++ (if semi then ";" else "") in
      cret (match m with
          | Sub => sub
          | JoinSide => sub
          | Side k => side_wrap k true sub
          | _ => finish m top
          end)
    end
  | NParen args =>
    (* sql.py:974-982 Parenthesis.__str__ *)
    let full :=
      l <~ cmap (fun a => t <~ crender Sub a ;;
                          cret (if is_select a then nl ++ t ++ nl else t)) args ;;
      cret ("(" ++ join ", " l ++ ")") in
    match m with
    | Tr | Str | Sub => full
    | NL =>                                                (* sql.py:1470-1475 *)
      match args with
      | [] => cerr IndexError
      | a :: _ =>
        t <~ crender Tr a ;;
        cret (if has_nl t then "(" ++ nl ++ " " ++ indent t ++ nl ++ ")" else "(" ++ t ++ ")")
      end
    | Clause =>
      full <~ full ;;
      if has_nl full then
        match args with [] => cerr IndexError
        | a :: _ => t <~ crender Tr a ;; cret (clause_paren full t) end
      else cret (clause_paren full [])
    | When =>
      full <~ full ;;
      if has_nl full then
        match args with [] => cerr IndexError
        | a :: _ => t <~ crender Tr a ;; cret (when_paren full t) end
      else cret (when_paren full [])
    | Top | From =>                                        (* sql.py:84-91 *)
      match args with
      | [] => cerr IndexError
      | a :: _ =>
        t <~ crender Sub a ;;
        cret ("(" ++ nl ++ (if is_select a then t else " " ++ indent t) ++ nl ++ ")")
      end
    | JoinSide => match args with [] => cerr IndexError | a :: _ => crender (Side 1) a end
    | Side k => match args with [] => cerr IndexError | a :: _ => crender (Side (S k)) a end
    end
  | NBoolC ty l r =>
    (* sql.py:1459-1480 BooleanCondition.transform *)
    match m with
    | Str => cerr AttributeError
    | _ =>
      tl <~ crender Tr l ;; tr <~ crender Tr r ;;
      let flat := tl ++ " " ++ upper ty ++ " " ++ tr in
      t <~ (if (length flat <? DEFAULT_LINE_LENGTH) && match m with NL => false | _ => true end
            then cret flat
            else
              nl_ <~ crender NL l ;; nr <~ crender NL r ;;
              cret (nl_ ++ nl ++ upper ty ++ " " ++ nr)) ;;
      cret (finish m t)
    end
  | NAlias e a with_as =>
    (* sql.py:1042-1048 Alias.transform *)
    match m with
    | Str => cerr AttributeError
    | Top =>                                 (* 77-79, 95-96; Alias.transform(from_str) *)
      t <~ crender From e ;;
      a <~ match a with inl s => cret s | inr x => crender Tr x end ;;
      cret (t ++ (if with_as then " AS " else " ") ++ a)
    | JoinSide =>                            (* 1206-1209, 1231-1232, 1240-1243, 1263-1264 *)
      t <~ crender (Side 0) e ;;
      a <~ match a with inl s => cret s | inr x => crender Str x end ;;
      cret (t ++ (if with_as then " AS" else "") ++ " " ++ a)
    | _ =>
      t <~ crender Tr e ;;
      a <~ match a with inl s => cret s | inr x => crender Tr x end ;;
      cret (finish m (t ++ (if with_as then " AS " else " ") ++ a))
    end
  | NWith queries sel =>
    (* sql.py:516-520, 497-500; WithStatement.transform takes no is_subquery *)
    match m with
    | Str => cerr AttributeError
    | _ =>
      qs <~ cmap (fun q => if is_with (snd q) then cerr TypeError
                           else t <~ crender Sub (snd q) ;;
                                cret (fst q ++ " AS (" ++ nl ++ t ++ nl ++ ")")) queries ;;
      s <~ crender Tr sel ;;
      cret (finish m ("WITH " ++ join ("," ++ nl) qs ++ nl ++ s))
    end
  | _ =>
    t <~ match n with
    | NOrderItem e asc desc =>                             (* sql.py:410-416 *)
      t <~ crender Str e ;; cret (t ++ if asc then " ASC" else if desc then " DESC" else "")
    | NFun name args => l <~ cmap (crender Tr) args ;; cret (call_text name l)
    | NCast col ty =>                                      (* sql.py:578-583 *)
      t <~ crender Tr col ;; cret ("CAST(" ++ t ++ " AS " ++ upper ty ++ ")")
    | NCount args distinct =>                              (* sql.py:591-596 *)
      l <~ cmap (crender Tr) args ;;
      cret ("COUNT(" ++ (if distinct then "DISTINCT " else "") ++ join ", " l ++ ")")
    | NArrayAgg col distinct ign resp order limit =>       (* sql.py:620-640 *)
      c <~ crender Tr col ;;
      o <~ match order with
           | Some l => l <~ cmap (crender Str) l ;; t <~ lift (order_text false l) ;; cret (" ORDER BY" ++ t)
           | None => cret "" end ;;
      cret ("ARRAY_AGG(" ++ (if distinct then "DISTINCT " else "") ++ c
          ++ (if ign then " IGNORE NULLS" else if resp then " RESPECT NULLS" else "") ++ o
          ++ match limit with
             | Some z => if Z.eqb z 0 then "" else " LIMIT " ++ str_of_Z z | None => "" end
          ++ ")")
    | NFiltered f c =>                                     (* sql.py:648-651 *)
      f <~ crender Tr f ;; c <~ crender Tr c ;; cret (f ++ " FILTER (WHERE " ++ c ++ ")")
    | NAnalytics f partition order frame =>                (* sql.py:674-694 *)
      f <~ crender Tr f ;;
      p <~ match partition with
           | Some (x :: l) =>
             l <~ cmap (crender Tr) (x :: l) ;;
             cret (nl ++ " PARTITION BY"
                 ++ match l with
                    | [t] => " " ++ t
                    | _ => nl ++ "  " ++ join ("," ++ nl ++ "  ") l end)
           | _ => cret "" end ;;
      o <~ match order with
           | Some l => l <~ cmap (crender Str) l ;; t <~ lift (order_text true l) ;;
                       cret (nl ++ " ORDER BY" ++ indent t)
           | None => cret "" end ;;
      let s := f ++ " OVER (" ++ p ++ o in
      let s := match frame with
               | Some (rr, fr) =>                          (* sql.py:743-744 *)
                 s ++ (if has_nl s then nl ++ " " else "") ++ upper rr ++ " " ++ upper fr
               | None => s end in
      cret (s ++ if has_nl s then nl ++ ")" else ")")
    | NColumn v => cret (column_text v)
    | NChained l r => l <~ crender Tr l ;; r <~ crender Tr r ;; cret (l ++ "." ++ r)  (* 807-808 *)
    | NType v => cret (upper v)                              (* sql.py:840-841 *)
    | NDatePart part e => t <~ crender Tr e ;; cret (upper part ++ " FROM " ++ t)    (* 876-877 *)
    | NString v q p =>                                     (* sql.py:889-892 *)
      cret (match p with Some p => p | None => [] end ++ q ++ v ++ q)
    | NInt z => cret (str_of_Z z)
    | NFloat t => cret t
    | NNull => cret "NULL"
    | NBool b => cret (if b then "TRUE" else "FALSE")
    | NArray args => l <~ cmap (crender Tr) args ;; cret ("[" ++ join ", " l ++ "]") (* 1022-1023 *)
    | NIndex e l =>                                        (* sql.py:1084-1087 *)
      t <~ crender Tr e ;; l <~ cmap (crender Tr) l ;; cret (t ++ "[" ++ join ", " l ++ "]")
    | NArith op l r =>                                     (* sql.py:1100-1102 *)
      l <~ crender Str l ;; r <~ crender Str r ;; cret (l ++ " " ++ op ++ " " ++ r)
    | NBitwise e op r =>                                   (* sql.py:1137-1140 *)
      e <~ crender Tr e ;; r <~ crender Tr r ;; cret (e ++ " " ++ op ++ " " ++ r)
    | NTable v brackets =>                                 (* sql.py:1153-1157 *)
      t <~ crender Tr v ;; cret (if brackets then "[" ++ t ++ "]" else t)
    | NUnnest e with_offset was alias =>                   (* sql.py:1172-1180 *)
      t <~ crender Tr e ;;
      cret (if with_offset then
            t ++ " WITH OFFSET"
              ++ match alias with
                 | Some (c :: a) => (if was then " AS" else "") ++ " " ++ c :: a
                 | _ => "" end
          else t)
    | NJoin ty l r on_ using_ =>                           (* sql.py:1202-1280 *)
      tr <~ crender JoinSide r ;; tl <~ crender JoinSide l ;;
      c <~ (match on_ with
            | Some x => t <~ crender Clause x ;; cret (nl ++ "ON" ++ t)
            | None => match using_ with
                      | Some x => t <~ crender Clause x ;; cret (nl ++ "USING" ++ t)
                      | None => cret "" end
            end) ;;
      cret (tl ++ (if str_eqb ty "," then "," else nl ++ upper ty) ++ " " ++ tr ++ c)
    | NCombined op l r =>                                  (* sql.py:1347-1355 *)
      tl <~ crender Tr l ;; tr <~ crender Tr r ;;
      cret (tl ++ nl ++ upper op ++ (if is_table r then " " else nl) ++ tr)
    | NCond e p r =>                                       (* sql.py:1419-1422 *)
      e <~ crender Tr e ;; r <~ crender Tr r ;; cret (e ++ " " ++ upper p ++ " " ++ r)
    | NNeg e =>                                            (* sql.py:1521-1525 *)
      t <~ crender Tr e ;; cret ("NOT" ++ (if is_paren e then "" else " ") ++ t)
    | NExcept e args =>
      e <~ crender Tr e ;; l <~ cmap (crender Tr) args ;; lift (select_all_text e "EXCEPT" l)
    | NReplace e args =>
      e <~ crender Tr e ;; l <~ cmap (crender Tr) args ;; lift (select_all_text e "REPLACE" l)
    | NCase e whens els =>                                 (* sql.py:1573-1600 *)
      e <~ match e with Some x => t <~ crender Tr x ;; cret (" " ++ t) | None => cret "" end ;;
      ws <~ cmap (fun wt => w <~ crender When (fst wt) ;; t <~ crender Str (snd wt) ;;
                            cret ("WHEN" ++ w ++ "THEN " ++ t)) whens ;;
      el <~ match els with
            | Some x => t <~ crender Tr x ;; cret (nl ++ " ELSE " ++ t) | None => cret "" end ;;
      cret ("CASE" ++ e ++ nl ++ " " ++ join (nl ++ " ") ws ++ el ++ nl ++ "END")
    | _ => cerr TypeError                                   (* handled above *)
    end ;;
    cret (finish m t)
  end.


(** Number of calls made by [n.transform()] *)
Definition calls (n : node) : nat := snd (crender Tr n).
