(** Model of the text production in sqlvalidator/grammar/sql.py: [transform], [__str__] and (only
    because [str()] of a bare SelectStatement falls back to it) [__repr__]. *)
From Verif Require Import PyStr Ast.
Local Open Scope str_scope.
Local Open Scope list_scope.

(** sql.py:6 *)
Definition DEFAULT_LINE_LENGTH : nat := 88.

Definition nl : str := [10%N].
Definition has_nl (s : str) : bool := has 10 s.
(** [s.replace("\n", "\n ")] and [s.replace("\n", "\n  ")] *)
Definition indent (s : str) : str := replace_c 10 [10; 32]%N s.
Definition indent2 (s : str) : str := replace_c 10 [10; 32; 32]%N s.
Definition repeat_s (k : nat) (c : N) : str := repeat c k.

(** ** [repr] *)
Definition hex_digit (n : N) : N := if (n <? 10)%N then (48 + n)%N else (87 + n)%N.
Definition hex2 (c : N) : str := [hex_digit (c / 16); hex_digit (c mod 16)]%N.
(** [repr(s)].  Simplification: code points above 160 other than 173 are taken as printable. *)
Definition repr_char (q c : N) : str :=
  if (N.eqb c q || N.eqb c 92)%bool then [92; c]%N
  else if N.eqb c 10 then [92; 110]%N
  else if N.eqb c 13 then [92; 114]%N
  else if N.eqb c 9 then [92; 116]%N
  else if ((c <? 32) || ((127 <=? c) && (c <=? 160)) || (c =? 173))%N then [92; 120]%N ++ hex2 c
  else [c].
Definition repr_str (s : str) : str :=
  let q := if has 39 s && negb (has 34 s) then 34%N else 39%N in
  q :: flat_map (repr_char q) s ++ [q].
Definition repr_bool (b : bool) : str := if b then "True" else "False".
Definition repr_opt_str (o : option str) : str :=
  match o with Some s => repr_str s | None => "None" end.

(** [", ".join(map(repr, l))] is [join ", "] over [rmap py_repr l]. *)
Fixpoint py_repr (n : node) : R str :=
  let default (cls : str) (v : R str) : R str :=
    v <- v ;; Ok ("<" ++ cls ++ ": " ++ v ++ ">") in                     (* sql.py:241-242 *)
  let ropt (o : option node) : R str :=
    match o with Some x => py_repr x | None => Ok "None" end in
  let rlist (l : list node) : R str := l <- rmap py_repr l ;; Ok (join ", " l) in
  let funcall (name : str) (args : R str) : R str :=                     (* sql.py:560-563 *)
    a <- args ;; Ok ("<FunctionCall " ++ name ++ " - " ++ a ++ ">") in
  match n with
  | NSelect exprs all dis don from_ where_ group having order limit offset semi =>
    (* sql.py:204-231 *)
    es <- rlist exprs ;;
    don <- match don with
           | Some l => l <- rlist l ;; Ok ("[" ++ l ++ "]") | None => Ok "None" end ;;
    f <- ropt from_ ;;
    w <- match where_ with Some x => default "WhereClause" (py_repr x) | None => Ok "None" end ;;
    g <- match group with
         | Some (args, rollup, _) =>                                     (* sql.py:303-306 *)
           a <- rlist args ;;
           Ok ("<GroupByClause: " ++ a ++ " - rollup=" ++ repr_bool rollup ++ ">")
         | None => Ok "None" end ;;
    h <- match having with Some x => default "HavingClause" (py_repr x) | None => Ok "None" end ;;
    o <- match order with
         | Some l => default "OrderByClause" (rlist l) | None => Ok "None" end ;;
    l <- match limit with
         | Some (all, x) =>                                              (* sql.py:458-459 *)
           x <- ropt x ;; Ok ("<LimitClause: " ++ x ++ " limit_all=" ++ repr_bool all ++ ">")
         | None => Ok "None" end ;;
    off <- match offset with Some x => default "OffsetClause" (py_repr x) | None => Ok "None" end ;;
    Ok ("<SelectStatement:" ++ nl ++ "  Expressions: [" ++ es ++ "]" ++ nl
        ++ "  Select All: " ++ repr_bool all ++ " - Select Distinct: " ++ repr_bool dis
        ++ " - Select Distinct On: " ++ don ++ nl
        ++ "  From: " ++ f ++ nl ++ "  Where: " ++ w ++ nl ++ "  Group By: " ++ g ++ nl
        ++ "  Having: " ++ h ++ nl ++ "  Order By: " ++ o ++ nl ++ "  Limit: " ++ l ++ nl
        ++ "  Offset: " ++ off ++ nl ++ "  Semi Colon: " ++ repr_bool semi ++ nl
        ++ ">" ++ nl ++ "        ")
  | NWith _ _ => Err AttributeError                     (* no attribute value *)
  | NOrderItem e asc desc =>                                             (* sql.py:418-421 *)
    v <- py_repr e ;;
    Ok ("<OrderByItem: " ++ v ++ " has_asc=" ++ repr_bool asc ++ " has_desc=" ++ repr_bool desc ++ ">")
  | NFun name args => funcall name (rlist args)
  | NCast col ty =>
    c <- py_repr col ;;
    funcall "cast" (Ok (c ++ ", 'AS', <Type: " ++ repr_str ty ++ ">"))
  | NCount args _ => funcall "count" (rlist args)
  | NArrayAgg col _ _ _ _ _ => funcall "array_agg" (py_repr col)
  | NFiltered _ _ => Err AttributeError
  | NAnalytics f partition order frame =>                                (* sql.py:713-725 *)
    f <- py_repr f ;;
    p <- match partition with
         | Some l => l <- rlist l ;; Ok ("[" ++ l ++ "]") | None => Ok "None" end ;;
    o <- match order with
         | Some l => default "OrderByClause" (rlist l) | None => Ok "None" end ;;
    let w := match frame with                                            (* sql.py:746-754 *)
             | Some (rr, fr) =>
               "<WindowFrameClause:" ++ nl ++ "  Row Range: " ++ repr_str rr ++ nl
               ++ "  Frame: " ++ repr_str fr ++ nl
             | None => "None" end in
    Ok ("<AnalyticsClause:" ++ nl ++ "  Function: " ++ f ++ nl ++ "  Partition By: " ++ p ++ nl
        ++ "  Order By: " ++ o ++ nl ++ "  Frame Clause: " ++ w ++ nl)
  | NColumn v => default "Column" (Ok (repr_str v))
  | NChained l r =>                                                      (* sql.py:810-811 *)
    l <- py_repr l ;; r <- py_repr r ;; Ok ("<ChainedColumns: " ++ l ++ "." ++ r ++ ">")
  | NType v => default "Type" (Ok (repr_str v))
  | NDatePart _ e => default "DatePartExtraction" (py_repr e)
  | NString v q p =>                                                     (* sql.py:894-897 *)
    Ok ("<String: " ++ repr_str v ++ " quotes=" ++ repr_str q ++ " prefix=" ++ repr_opt_str p ++ ">")
  | NInt z => default "Integer" (Ok (str_of_Z z))
  | NFloat t => default "Float" (Ok t)
  | NNull => default "Null" (Ok "None")
  | NBool b => default "Boolean" (Ok (repr_bool b))
  | NParen args => default "Parenthesis" (rlist args)
  | NArray args => default "Array" (rlist args)
  | NAlias e a w =>                                                      (* sql.py:1050-1053 *)
    e <- py_repr e ;;
    a <- match a with inl s => Ok (repr_str s) | inr x => py_repr x end ;;
    Ok ("<Alias: " ++ e ++ " as=" ++ repr_bool w ++ " " ++ a ++ ">")
  | NIndex e l =>                                                        (* sql.py:1089-1092 *)
    e <- py_repr e ;; l <- rlist l ;; Ok ("<Index: " ++ e ++ " indices=" ++ repr_str l ++ ">")
  | NArith op l r =>                                                     (* sql.py:1104-1107 *)
    l <- py_repr l ;; r <- py_repr r ;;
    Ok ("<ArithmaticOperator " ++ op ++ ": " ++ l ++ ", " ++ r ++ ">")
  | NBitwise e op r =>                                                   (* sql.py:1142-1145 *)
    e <- py_repr e ;; r <- py_repr r ;;
    Ok ("<BitwiseOperation: " ++ e ++ " " ++ op ++ " " ++ r ++ ">")
  | NTable v _ => default "Table" (py_repr v)
  | NUnnest e _ _ _ => default "Unnest" (py_repr e)
  | NJoin ty l r on_ using_ =>                                           (* sql.py:1292-1306 *)
    l <- py_repr l ;; r <- py_repr r ;;
    o <- match on_ with Some x => default "OnClause" (py_repr x) | None => Ok "None" end ;;
    u <- match using_ with Some x => default "UsingClause" (py_repr x) | None => Ok "None" end ;;
    Ok ("<Join:" ++ nl ++ "  Join Type: " ++ repr_str ty ++ nl ++ "  Left part: " ++ l ++ nl
        ++ "  Right part: " ++ r ++ nl ++ "  On: " ++ o ++ nl ++ "  Using " ++ u ++ nl)
  | NCombined op l r =>                                                  (* sql.py:1365-1375 *)
    l <- py_repr l ;; r <- py_repr r ;;
    Ok ("<CombinedQueries:" ++ nl ++ "  Set Operator: " ++ repr_str op ++ nl
        ++ "  Left query: " ++ l ++ nl ++ "  Right query: " ++ r ++ nl)
  | NCond e p r =>                                                       (* sql.py:1424-1427 *)
    e <- py_repr e ;; r <- py_repr r ;;
    Ok ("<Condition: " ++ e ++ " " ++ p ++ " " ++ r ++ ">")
  | NBoolC ty l r =>                                                     (* sql.py:1482-1485 *)
    l <- py_repr l ;; r <- py_repr r ;;
    Ok ("<BooleanCondition " ++ ty ++ ": " ++ l ++ ", " ++ r ++ ">")
  | NNeg e => default "Negation" (py_repr e)
  | NExcept e args =>                                                    (* sql.py:1539-1542 *)
    e <- py_repr e ;; a <- rlist args ;;
    Ok ("<ExceptClause: " ++ e ++ " args: [" ++ a ++ "]>")
  | NReplace e args =>
    e <- py_repr e ;; a <- rlist args ;;
    Ok ("<ReplaceClause: " ++ e ++ " args: [" ++ a ++ "]>")
  | NCase e _ _ => default "Case" (ropt e)
  end.

(** ** [transform] and [str] *)

(** How a node is being turned into text:
    - [Tr]     : [transform(obj)] (sql.py:9-12)
    - [Str]    : [str(obj)]
    - [Sub]    : [obj.transform(is_subquery=True)] if it is a SelectStatement, else [transform(obj)]
    - [NL]     : an argument of a BooleanCondition broken over lines (sql.py:1467-1478)
    - [Clause] : a WhereClause/HavingClause/OnClause/UsingClause around it (sql.py:262-268)
    - [When]   : the text after WHEN, up to THEN (sql.py:1582-1590)
    - [Top]    : the FROM clause of a SelectStatement (sql.py:76-96)
    - [From]   : the same without its alias (sql.py:84-93)
    - [JoinSide] : a side of a Join (sql.py:1204-1232, 1238-1264)
    - [Side k] : the same without its alias, below [k] parentheses (sql.py:1211-1230, 1245-1262) *)
Inductive mode := Tr | Str | Sub | NL | Clause | When | Top | From | JoinSide | Side (k : nat).

(** sql.py:220-228, 254-262 (without the leading space of the right side) *)
Definition side_wrap (k : nat) (is_select : bool) (el : str) : str :=
  match k with
  | O => el
  | S _ => repeat_s k 40 ++ (if is_select then nl ++ el else indent (nl ++ el)) ++ nl
           ++ repeat_s k 41
  end.
(** sql.py:266-268, a clause whose value is not a Parenthesis *)
Definition clause_text (t : str) : str :=
  if has_nl t then nl ++ " " ++ indent t else " " ++ t.
(** sql.py:264-265 *)
Definition clause_paren (full inner : str) : str :=
  if has_nl full then " (" ++ nl ++ " " ++ indent inner ++ nl ++ ")" else " " ++ full.
(** sql.py:1583-1590 *)
Definition when_text (t : str) : str :=
  if has_nl t then nl ++ "  " ++ indent2 t ++ nl ++ " " else " " ++ t ++ " ".
Definition when_paren (full inner : str) : str :=
  if has_nl full then " (" ++ nl ++ "  " ++ indent2 inner ++ nl ++ " )" ++ nl ++ " "
  else " " ++ full ++ " ".
(** The text of a node that is neither a Parenthesis nor a SelectStatement, by mode *)
Definition finish (m : mode) (t : str) : str :=
  match m with
  | Tr | Str | Sub | NL | Top | From | JoinSide => t
  | Clause => clause_text t
  | When => when_text t
  | Side k => side_wrap k false t
  end.

Definition is_paren (n : node) : bool := match n with NParen _ => true | _ => false end.
Definition is_select (n : node) : bool := match n with NSelect _ _ _ _ _ _ _ _ _ _ _ _ => true | _ => false end.
Definition is_with (n : node) : bool := match n with NWith _ _ => true | _ => false end.
Definition is_table (n : node) : bool := match n with NTable _ _ => true | _ => false end.

(** sql.py:536-552 FunctionCall.__str__ from the transformed arguments *)
Definition call_text (name : str) (args : list str) : str :=
  if existsb has_nl args || (DEFAULT_LINE_LENGTH <? length (join ", " args))
  then upper name ++ "(" ++ nl ++ " " ++ join ("," ++ nl ++ " ") (map indent args) ++ nl ++ ")"
  else upper name ++ "(" ++ join ", " args ++ ")".

(** sql.py:780-784 Column.__str__ *)
Definition column_text (v : str) : str := if mem v COLUMN_KEYWORDS then upper v else v.

(** sql.py:374-383 OrderByClause.transform from the items' texts *)
Definition order_text (allow_linebreak : bool) (items : list str) : R str :=
  match items with
  | [] => Err IndexError
  | [i] => Ok (" " ++ i)
  | _ => Ok (if allow_linebreak then indent (nl ++ join ("," ++ nl) items)
             else " " ++ join ", " items)
  end.

(** sql.py:1544-1550 SelectAllClause.__str__ *)
Definition select_all_text (v keyword : str) (args : list str) : R str :=
  match args with
  | [] => Err IndexError
  | [a] => Ok (v ++ " " ++ keyword ++ " (" ++ a ++ ")")
  | _ => Ok (v ++ " " ++ keyword ++ " (" ++ nl ++ " " ++ join ("," ++ nl ++ " ") args ++ nl ++ ")")
  end.

Fixpoint render (m : mode) (n : node) {struct n} : R str :=
  match n with
  | NSelect exprs sel_all sel_distinct don from_ where_ group having order limit offset semi =>
    match m with
    | Str => py_repr n                               (* object.__str__ is __repr__ *)
    | _ =>
      (* sql.py:53-124 SelectStatement.transform *)
      d <- (if sel_all then Ok " ALL"
            else if sel_distinct then
              match don with
              | Some (x :: l) =>
                l <- rmap (render Str) (x :: l) ;; Ok (" DISTINCT ON (" ++ join ", " l ++ ")")
              | _ => Ok " DISTINCT"
              end
            else Ok "") ;;
      es <- rmap (render Tr) exprs ;;
      let e := match es with
               | [e] => " " ++ e
               | _ => nl ++ " " ++ join ("," ++ nl ++ " ") (map indent es)
               end in
      f <- (match from_ with
            | None => Ok ""
            | Some f =>
              t <- render Top f ;; Ok (nl ++ "FROM " ++ t)
            end) ;;
      w <- match where_ with
           | Some x => t <- render Clause x ;; Ok (nl ++ "WHERE" ++ t) | None => Ok "" end ;;
      g <- (match group with
            | Some (args, rollup, each) =>           (* GroupByClause.__str__, 292-301 *)
              t <- (match args with
                    | [] => Err IndexError
                    | [a] => t <- render Tr a ;; Ok (" " ++ t)
                    | _ => l <- rmap (render Str) args ;;
                           Ok (indent (nl ++ join ("," ++ nl) l))
                    end) ;;
              Ok (nl ++ "GROUP " ++ (if each then "EACH " else "") ++ "BY"
                  ++ (if rollup then " ROLLUP" else "") ++ t)
            | None => Ok ""
            end) ;;
      h <- match having with
           | Some x => t <- render Clause x ;; Ok (nl ++ "HAVING" ++ t) | None => Ok "" end ;;
      o <- match order with
           | Some l => l <- rmap (render Str) l ;; t <- order_text true l ;;
                       Ok (nl ++ "ORDER BY" ++ t)
           | None => Ok "" end ;;
      l <- match limit with
           | Some (true, _) => Ok (nl ++ "LIMIT ALL")
           | Some (false, Some x) => t <- render Str x ;; Ok (nl ++ "LIMIT " ++ t)
           | Some (false, None) => Ok (nl ++ "LIMIT None")
           | None => Ok "" end ;;
      off <- match offset with
             | Some x => t <- render Str x ;; Ok (nl ++ "OFFSET " ++ t) | None => Ok "" end ;;
      let text := "SELECT" ++ d ++ e ++ f ++ w ++ g ++ h ++ o ++ l ++ off in
      let sub := " " ++ indent text in
      let top := text ++ (if semi then ";" else "") in
      Ok (match m with
          | Sub => sub
          | JoinSide => sub
          | Side k => side_wrap k true sub
          | _ => finish m top
          end)
    end
  | NParen args =>
    (* sql.py:974-982 Parenthesis.__str__ *)
    let full :=
      l <- rmap (fun a => t <- render Sub a ;;
                          Ok (if is_select a then nl ++ t ++ nl else t)) args ;;
      Ok ("(" ++ join ", " l ++ ")") in
    match m with
    | Tr | Str | Sub => full
    | NL =>                                                (* sql.py:1470-1475 *)
      match args with
      | [] => Err IndexError
      | a :: _ =>
        t <- render Tr a ;;
        Ok (if has_nl t then "(" ++ nl ++ " " ++ indent t ++ nl ++ ")" else "(" ++ t ++ ")")
      end
    | Clause =>
      full <- full ;;
      if has_nl full then
        match args with [] => Err IndexError
        | a :: _ => t <- render Tr a ;; Ok (clause_paren full t) end
      else Ok (clause_paren full [])
    | When =>
      full <- full ;;
      if has_nl full then
        match args with [] => Err IndexError
        | a :: _ => t <- render Tr a ;; Ok (when_paren full t) end
      else Ok (when_paren full [])
    | Top | From =>                                        (* sql.py:84-91 *)
      match args with
      | [] => Err IndexError
      | a :: _ =>
        t <- render Sub a ;;
        Ok ("(" ++ nl ++ (if is_select a then t else " " ++ indent t) ++ nl ++ ")")
      end
    | JoinSide => match args with [] => Err IndexError | a :: _ => render (Side 1) a end
    | Side k => match args with [] => Err IndexError | a :: _ => render (Side (S k)) a end
    end
  | NBoolC ty l r =>
    (* sql.py:1459-1480 BooleanCondition.transform *)
    match m with
    | Str => Err AttributeError
    | _ =>
      tl <- render Tr l ;; tr <- render Tr r ;;
      let flat := tl ++ " " ++ upper ty ++ " " ++ tr in
      t <- (if (length flat <? DEFAULT_LINE_LENGTH) && match m with NL => false | _ => true end
            then Ok flat
            else
              nl_ <- render NL l ;; nr <- render NL r ;;
              Ok (nl_ ++ nl ++ upper ty ++ " " ++ nr)) ;;
      Ok (finish m t)
    end
  | NAlias e a with_as =>
    (* sql.py:1042-1048 Alias.transform *)
    match m with
    | Str => Err AttributeError
    | Top =>                                 (* 77-79, 95-96; Alias.transform(from_str) *)
      t <- render From e ;;
      a <- match a with inl s => Ok s | inr x => render Tr x end ;;
      Ok (t ++ (if with_as then " AS " else " ") ++ a)
    | JoinSide =>                            (* 1206-1209, 1231-1232, 1240-1243, 1263-1264 *)
      t <- render (Side 0) e ;;
      a <- match a with inl s => Ok s | inr x => render Str x end ;;
      Ok (t ++ (if with_as then " AS" else "") ++ " " ++ a)
    | _ =>
      t <- render Tr e ;;
      a <- match a with inl s => Ok s | inr x => render Tr x end ;;
      Ok (finish m (t ++ (if with_as then " AS " else " ") ++ a))
    end
  | NWith queries sel =>
    (* sql.py:516-520, 497-500; WithStatement.transform takes no is_subquery *)
    match m with
    | Str => Err AttributeError
    | _ =>
      qs <- rmap (fun q => if is_with (snd q) then Err TypeError
                           else t <- render Sub (snd q) ;;
                                Ok (fst q ++ " AS (" ++ nl ++ t ++ nl ++ ")")) queries ;;
      s <- render Tr sel ;;
      Ok (finish m ("WITH " ++ join ("," ++ nl) qs ++ nl ++ s))
    end
  | _ =>
    t <- match n with
    | NOrderItem e asc desc =>                             (* sql.py:410-416 *)
      t <- render Str e ;; Ok (t ++ if asc then " ASC" else if desc then " DESC" else "")
    | NFun name args => l <- rmap (render Tr) args ;; Ok (call_text name l)
    | NCast col ty =>                                      (* sql.py:578-583 *)
      t <- render Tr col ;; Ok ("CAST(" ++ t ++ " AS " ++ upper ty ++ ")")
    | NCount args distinct =>                              (* sql.py:591-596 *)
      l <- rmap (render Tr) args ;;
      Ok ("COUNT(" ++ (if distinct then "DISTINCT " else "") ++ join ", " l ++ ")")
    | NArrayAgg col distinct ign resp order limit =>       (* sql.py:620-640 *)
      c <- render Tr col ;;
      o <- match order with
           | Some l => l <- rmap (render Str) l ;; t <- order_text false l ;; Ok (" ORDER BY" ++ t)
           | None => Ok "" end ;;
      Ok ("ARRAY_AGG(" ++ (if distinct then "DISTINCT " else "") ++ c
          ++ (if ign then " IGNORE NULLS" else if resp then " RESPECT NULLS" else "") ++ o
          ++ match limit with
             | Some z => if Z.eqb z 0 then "" else " LIMIT " ++ str_of_Z z | None => "" end
          ++ ")")
    | NFiltered f c =>                                     (* sql.py:648-651 *)
      f <- render Tr f ;; c <- render Tr c ;; Ok (f ++ " FILTER (WHERE " ++ c ++ ")")
    | NAnalytics f partition order frame =>                (* sql.py:674-694 *)
      f <- render Tr f ;;
      p <- match partition with
           | Some (x :: l) =>
             l <- rmap (render Tr) (x :: l) ;;
             Ok (nl ++ " PARTITION BY"
                 ++ match l with
                    | [t] => " " ++ t
                    | _ => nl ++ "  " ++ join ("," ++ nl ++ "  ") l end)
           | _ => Ok "" end ;;
      o <- match order with
           | Some l => l <- rmap (render Str) l ;; t <- order_text true l ;;
                       Ok (nl ++ " ORDER BY" ++ indent t)
           | None => Ok "" end ;;
      let s := f ++ " OVER (" ++ p ++ o in
      let s := match frame with
               | Some (rr, fr) =>                          (* sql.py:743-744 *)
                 s ++ (if has_nl s then nl ++ " " else "") ++ upper rr ++ " " ++ upper fr
               | None => s end in
      Ok (s ++ if has_nl s then nl ++ ")" else ")")
    | NColumn v => Ok (column_text v)
    | NChained l r => l <- render Tr l ;; r <- render Tr r ;; Ok (l ++ "." ++ r)  (* 807-808 *)
    | NType v => Ok (upper v)                              (* sql.py:840-841 *)
    | NDatePart part e => t <- render Tr e ;; Ok (upper part ++ " FROM " ++ t)    (* 876-877 *)
    | NString v q p =>                                     (* sql.py:889-892 *)
      Ok (match p with Some p => p | None => [] end ++ q ++ v ++ q)
    | NInt z => Ok (str_of_Z z)
    | NFloat t => Ok t
    | NNull => Ok "NULL"
    | NBool b => Ok (if b then "TRUE" else "FALSE")
    | NArray args => l <- rmap (render Tr) args ;; Ok ("[" ++ join ", " l ++ "]") (* 1022-1023 *)
    | NIndex e l =>                                        (* sql.py:1084-1087 *)
      t <- render Tr e ;; l <- rmap (render Tr) l ;; Ok (t ++ "[" ++ join ", " l ++ "]")
    | NArith op l r =>                                     (* sql.py:1100-1102 *)
      l <- render Str l ;; r <- render Str r ;; Ok (l ++ " " ++ op ++ " " ++ r)
    | NBitwise e op r =>                                   (* sql.py:1137-1140 *)
      e <- render Tr e ;; r <- render Tr r ;; Ok (e ++ " " ++ op ++ " " ++ r)
    | NTable v brackets =>                                 (* sql.py:1153-1157 *)
      t <- render Tr v ;; Ok (if brackets then "[" ++ t ++ "]" else t)
    | NUnnest e with_offset was alias =>                   (* sql.py:1172-1180 *)
      t <- render Tr e ;;
      Ok (if with_offset then
            t ++ " WITH OFFSET"
              ++ match alias with
                 | Some (c :: a) => (if was then " AS" else "") ++ " " ++ c :: a
                 | _ => "" end
          else t)
    | NJoin ty l r on_ using_ =>                           (* sql.py:1202-1280 *)
      tr <- render JoinSide r ;; tl <- render JoinSide l ;;
      c <- (match on_ with
            | Some x => t <- render Clause x ;; Ok (nl ++ "ON" ++ t)
            | None => match using_ with
                      | Some x => t <- render Clause x ;; Ok (nl ++ "USING" ++ t)
                      | None => Ok "" end
            end) ;;
      Ok (tl ++ (if str_eqb ty "," then "," else nl ++ upper ty) ++ " " ++ tr ++ c)
    | NCombined op l r =>                                  (* sql.py:1347-1355 *)
      tl <- render Tr l ;; tr <- render Tr r ;;
      Ok (tl ++ nl ++ upper op ++ (if is_table r then " " else nl) ++ tr)
    | NCond e p r =>                                       (* sql.py:1419-1422 *)
      e <- render Tr e ;; r <- render Tr r ;; Ok (e ++ " " ++ upper p ++ " " ++ r)
    | NNeg e =>                                            (* sql.py:1521-1525 *)
      t <- render Tr e ;; Ok ("NOT" ++ (if is_paren e then "" else " ") ++ t)
    | NExcept e args =>
      e <- render Tr e ;; l <- rmap (render Tr) args ;; select_all_text e "EXCEPT" l
    | NReplace e args =>
      e <- render Tr e ;; l <- rmap (render Tr) args ;; select_all_text e "REPLACE" l
    | NCase e whens els =>                                 (* sql.py:1573-1600 *)
      e <- match e with Some x => t <- render Tr x ;; Ok (" " ++ t) | None => Ok "" end ;;
      ws <- rmap (fun wt => w <- render When (fst wt) ;; t <- render Str (snd wt) ;;
                            Ok ("WHEN" ++ w ++ "THEN " ++ t)) whens ;;
      el <- match els with
            | Some x => t <- render Tr x ;; Ok (nl ++ " ELSE " ++ t) | None => Ok "" end ;;
      Ok ("CASE" ++ e ++ nl ++ " " ++ join (nl ++ " ") ws ++ el ++ nl ++ "END")
    | _ => Err TypeError                                   (* handled above *)
    end ;;
    Ok (finish m t)
  end.

(** [node.transform()] of a parsed statement *)
Definition transform (n : node) : R str := render Tr n.
