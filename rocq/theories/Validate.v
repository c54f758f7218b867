(** Model of the validation in sqlvalidator/grammar/sql.py: [known_fields], [return_type],
    [resolve_return_type] and [validate]. *)
From Verif Require Import PyStr Ast Render.
Local Open Scope str_scope.
Local Open Scope list_scope.

(** The Python types used as values by the validator; [None] (from the return_type of an empty
    Parenthesis) is [option]. *)
Inductive ty := TObject | TBool | TInt | TFloat | TStr | TNone.
Definition ty_eqb (a b : ty) : bool :=
  match a, b with
  | TObject, TObject | TBool, TBool | TInt, TInt | TFloat, TFloat | TStr, TStr | TNone, TNone => true
  | _, _ => false
  end.
Definition oty_eqb (a b : option ty) : bool :=
  match a, b with Some a, Some b => ty_eqb a b | None, None => true | _, _ => false end.
(** [t.__name__] *)
Definition ty_name (t : ty) : str :=
  match t with
  | TObject => "object" | TBool => "bool" | TInt => "int" | TFloat => "float" | TStr => "str"
  | TNone => "NoneType"
  end.

(** sql.py:15-21 [_FieldInfo] and sets of them: lists without repetition.  Iteration order over a
    Python set is arbitrary; the model takes it as the parameter [ord] (a permutation) wherever
    the order can matter. *)
Definition field := (str * option ty)%type.
Definition fields := list field.
Definition field_eqb (a b : field) : bool := str_eqb (fst a) (fst b) && oty_eqb (snd a) (snd b).
Definition fadd (f : field) (s : fields) : fields := if existsb (field_eqb f) s then s else s ++ [f].
Definition funion (a b : fields) : fields := fold_left (fun s f => fadd f s) b a.
Definition fset (l : list field) : fields := funion [] l.
(** [any(f.name == n for f in s)] *)
Definition fnamed (n : str) (s : fields) : bool := existsb (fun f => str_eqb (fst f) n) s.
(** [name.split(".", 1)[-1]] *)
Fixpoint after_dot (s : str) : option str :=
  match s with
  | c :: r => if N.eqb c 46 then Some r else after_dot r
  | [] => None
  end.
Definition unqualified (s : str) : str := match after_dot s with Some r => r | None => s end.
Definition fmatching (v : str) (s : fields) : fields :=
  filter (fun f => str_eqb (unqualified (fst f)) v) s.

(** [return_type] of each class (sql.py:250-252 by default) *)
Fixpoint return_type (n : node) : R (option ty) :=
  match n with
  | NSelect _ _ _ _ _ _ _ _ _ _ _ _ => Err AttributeError   (* no such attribute *)
  | NChained _ r => return_type r                             (* sql.py:820-822 *)
  | NString _ _ _ => Ok (Some TStr)                           (* sql.py:899-901 *)
  | NInt _ => Ok (Some TInt)                                  (* sql.py:911-913 *)
  | NFloat _ => Ok (Some TFloat)                              (* sql.py:923-925 *)
  | NNull => Ok (Some TNone)                                  (* sql.py:937-939 *)
  | NBool _ => Ok (Some TBool)                                (* sql.py:965-967 *)
  | NParen (a :: _) => return_type a                          (* sql.py:1012-1015 *)
  | NParen [] => Ok None
  | NAlias e _ _ => return_type e                             (* sql.py:1067-1069 *)
  | NArith _ _ _ => Ok (Some TInt)   (* sql.py:1117-1121; no argument is a Python float *)
  | NCond _ _ _ | NBoolC _ _ _ | NNeg _ => Ok (Some TBool)    (* 1446, 1510, 1527 *)
  | _ => Ok (Some TObject)
  end.

(** sql.py:254-258 [resolve_return_type]; the comparison text is computed once per field *)
Definition resolve (ord : fields -> fields) (n : node) (known : fields) : R (option ty) :=
  if is_select n then Err AttributeError
  else
    match ord known with
    | [] => return_type n
    | l =>
      t <- render Tr n ;;
      match filter (fun f => str_eqb (fst f) t) l with
      | f :: _ => Ok (snd f)
      | [] => return_type n
      end
    end.

(** [known_fields] (SelectStatement 150-173, Parenthesis 1006-1010, Alias 1071-1076, Table
    1159-1161, Join 1314-1336; AttributeError for every other class).  A non-string, non-Column
    alias of a select expression makes [fields.add] raise (expressions are unhashable); a String
    alias of a join side cannot be concatenated with a string. *)
Definition star : field := ("*", Some TObject).
Definition alias_fields (alias : R str) (fs : fields) : R fields :=
  match fs with
  | [] => Ok []
  | _ => a <- alias ;; Ok (fset (map (fun f => (a ++ "." ++ fst f, snd f)) fs))
  end.
Definition select_field (e : node) : R (list field) :=
  match e with
  | NColumn v => Ok [(v, Some TObject)]
  | NAlias x a _ =>
    t <- return_type x ;;
    match a with
    | inl s => Ok [(s, t)]
    | inr (NColumn v) => Ok [(v, t)]
    | inr _ => Err TypeError
    end
  | _ => Ok []
  end.
Fixpoint known_fields (n : node) : R fields :=
  match n with
  | NSelect exprs _ _ _ from_ _ _ _ _ _ _ _ =>
    fs <- rmap select_field exprs ;;
    let fs := fset (concat fs) in
    match from_ with
    | Some (NParen (NSelect _ _ _ _ _ _ _ _ _ _ _ _ as s :: _)) =>
      sub <- known_fields s ;;
      if fnamed "*" fs && negb (fnamed "*" sub)
      then Ok (funion (filter (fun f => negb (str_eqb (fst f) "*")) fs) sub)
      else Ok fs
    | Some (NParen []) => Err IndexError
    | _ => Ok fs
    end
  | NParen [] => Err IndexError
  | NParen (a :: _) =>
    match known_fields a with Err AttributeError => Ok [] | r => r end
  | NAlias e a _ =>
    fs <- known_fields e ;;
    alias_fields (match a with inl s => Ok s | inr x => render Tr x end) fs
  | NTable _ _ => Ok [star]
  | NJoin _ l r _ _ =>
    lf <- (match l with
           | NAlias e a _ =>
             fs <- known_fields e ;;
             alias_fields (match a with inl s => Ok s | inr _ => Err TypeError end) fs
           | _ => known_fields l
           end) ;;
    rf <- (match r with
           | NAlias e a _ =>
             fs <- known_fields e ;;
             alias_fields (match a with inl s => Ok s | inr _ => Err TypeError end) fs
           | _ => known_fields r
           end) ;;
    Ok (funion lf rf)
  | _ => Err AttributeError
  end.

(** [while isinstance(x, Parenthesis): x = x.args[0]] (sql.py:320-321; 433-434, 467-468, 481-482
    use the property [value] of Parenthesis, 994-998, with the same effect) *)
Fixpoint unparen (n : node) : R node :=
  match n with
  | NParen [] => Err IndexError
  | NParen (a :: _) => unparen a
  | _ => Ok n
  end.

(** sql.py:786-800 Column.validate *)
Definition column_errors (v : str) (known : fields) : list str :=
  if negb (fnamed v known) && negb (str_eqb v "*") && negb (fnamed "*" known) then
    match fmatching v known with
    | [] => ["The column " ++ v ++ " was not found"]
    | [_] => []
    | _ => ["column """ ++ v ++ """ is ambiguous"]
    end
  else [].

(** sql.py:824-834 ChainedColumns.validate *)
Definition chained_errors (l r : node) (known : fields) : R (list str) :=
  alias <- render Tr l ;;
  rt <- render Tr r ;;
  let full := alias ++ "." ++ rt in
  if negb (fnamed full known) && negb (fnamed (alias ++ ".*") known) && negb (fnamed "*" known)
  then last <- render Str r ;; Ok ["The column " ++ last ++ " was not found in alias " ++ alias]
  else Ok [].

(** sql.py:273-279, 360-366, 1500-1506: the argument of [who] must be boolean *)
Definition bool_errors (ord : fields -> fields) (who : str) (n : node) (known : fields)
  : R (list str) :=
  t <- resolve ord n known ;;
  match t with
  | Some TBool | Some TObject => Ok []
  | Some t => Ok ["The argument of " ++ who ++ " must be type boolean, not type " ++ ty_name t]
  | None => Err AttributeError         (* None has no __name__ *)
  end.

(** sql.py:317-345 GroupByClause.validate, one argument *)
Definition string_aliases (exprs : list node) : list str :=
  flat_map (fun e => match e with NAlias _ (inl s) _ => [s] | _ => [] end) exprs.
Definition group_arg_errors (known : fields) (exprs : list node) (arg : node) : R (list str) :=
  let by_name v :=
    if negb (fnamed v known) && negb (mem v (string_aliases exprs)) && negb (fnamed "*" known)
    then match fmatching v known with
         | [] => Ok ["column """ ++ v ++ """ does not exist"]
         | [_] => Ok []
         | _ => Err AttributeError     (* GroupByClause has no attribute value *)
         end
    else Ok [] in
  arg <- unparen arg ;;
  match arg with
  | NInt z =>
    if (z <=? 0)%Z || (Z.of_nat (length exprs) <? z)%Z
    then Ok ["GROUP BY position " ++ str_of_Z z ++ " is not in select list"] else Ok []
  | NColumn v => by_name v
  | NString v _ _ => by_name v
  | _ => Ok []
  end.

(** sql.py:464-474 LimitClause.validate, 478-488 OffsetClause.validate *)
Definition count_errors (not_int negative : str) (n : node) : R (list str) :=
  v <- unparen n ;;
  t <- return_type v ;;
  match v with
  | NInt z => Ok (if (z <? 0)%Z then [negative] else [])
  | _ => Ok [not_int]
  end.

Definition LIMIT_VAR : str := "argument of LIMIT must not contain variables".
Definition LIMIT_NEG : str := "LIMIT must not be negative".
Definition OFFSET_VAR : str := "argument of OFFSET must be integer".
Definition OFFSET_NEG : str := "OFFSET must not be negative".

(** [rconcat f l]: the errors of every element, in order, the first exception winning *)
Definition rconcat {A} (f : A -> R (list str)) (l : list A) : R (list str) :=
  ls <- rmap f l ;; Ok (concat ls).
Definition ropt {A} (f : A -> R (list str)) (o : option A) : R (list str) :=
  match o with Some x => f x | None => Ok [] end.

(** sql.py:430-443 OrderByItem.validate; [count] is [len(select_expressions)], [None] when
    select_expressions is None; [rest] is [self.value.validate(known_fields)] *)
Definition order_item_errors (count : option nat) (e : node) (rest : R (list str)) : R (list str) :=
  v <- unparen e ;;
  match v with
  | NInt z =>
    let msg := "ORDER BY position " ++ str_of_Z z ++ " is not in select list" in
    if (z <=? 0)%Z then Ok [msg]
    else match count with
         | Some n => Ok (if (Z.of_nat n <? z)%Z then [msg] else [])
         | None => Err TypeError
         end
  | _ => rest
  end.

(** sql.py:126-148: SelectStatement.validate adds the fields of its FROM *)
Definition visible (known : fields) (from_ : option node) : R fields :=
  match from_ with
  | None => Ok known
  | Some f => match known_fields f with
              | Ok fs => Ok (funion known fs)
              | Err AttributeError => Ok known
              | Err e => Err e
              end
  end.

(** [node.validate(known_fields)] for every class; classes not listed inherit
    Expression.validate, which returns [[]] (sql.py:247-248). *)
Fixpoint validate (ord : fields -> fields) (known : fields) (n : node) {struct n} : R (list str) :=
  match n with
  | NSelect exprs _ _ _ from_ where_ group having order limit offset _ =>
    known <- visible known from_ ;;
    e1 <- rconcat (validate ord known) exprs ;;
    e2 <- ropt (validate ord []) from_ ;;
    e3 <- ropt (fun x => a <- validate ord known x ;; b <- bool_errors ord "WHERE" x known ;;
                         Ok (a ++ b)) where_ ;;
    e4 <- ropt (fun g => rconcat (group_arg_errors known exprs) (fst (fst g))) group ;;
    e5 <- ropt (fun x => a <- validate ord known x ;; b <- bool_errors ord "HAVING" x known ;;
                         Ok (a ++ b)) having ;;
    e6 <- ropt (rconcat (fun i => match i with
                  | NOrderItem e _ _ =>
                    order_item_errors (Some (length exprs)) e (validate ord known e)
                  | _ => Err TypeError
                  end)) order ;;
    e7 <- ropt (fun l => match snd l with
                         | Some x => count_errors LIMIT_VAR LIMIT_NEG x
                         | None => Err AttributeError        (* None.return_type *)
                         end) limit ;;
    e8 <- ropt (count_errors OFFSET_VAR OFFSET_NEG) offset ;;
    Ok (e1 ++ e2 ++ e3 ++ e4 ++ e5 ++ e6 ++ e7 ++ e8)
  | NFun _ args => rconcat (validate ord known) args                (* sql.py:554-558 *)
  | NCast col _ => _ <- validate ord known col ;; Err AttributeError (* a str has no validate *)
  | NCount args _ => rconcat (validate ord known) args
  | NArrayAgg col _ _ _ _ _ => validate ord known col
  | NFiltered f c =>                                                (* sql.py:660-664 *)
    a <- validate ord known f ;; b <- validate ord known c ;; Ok (a ++ b)
  | NAnalytics f partition order _ =>                               (* sql.py:727-735 *)
    a <- validate ord known f ;;
    b <- ropt (rconcat (validate ord known)) partition ;;
    c <- ropt (rconcat (fun i => match i with
                 | NOrderItem e _ _ => order_item_errors None e (validate ord known e)
                 | _ => Err TypeError
                 end)) order ;;
    Ok (a ++ b ++ c)
  | NColumn v => Ok (column_errors v known)
  | NChained l r => chained_errors l r known
  | NParen args => rconcat (validate ord known) args                (* sql.py:1000-1004 *)
  | NAlias e _ _ => validate ord known e                            (* sql.py:1062-1065 *)
  | NJoin ty _ _ on_ using_ =>                                      (* sql.py:1308-1312 *)
    Ok (if negb (mem ty ["CROSS JOIN"; ","])
           && match on_, using_ with None, None => true | _, _ => false end
        then ["Missing ON or USING for join"] else [])
  | NCond e p r =>                                                  (* sql.py:1437-1444 *)
    a <- validate ord known e ;;
    b <- (if str_eqb (lower p) "between" then
            match r with
            | NBoolC _ x y => bx <- validate ord known x ;; by_ <- validate ord known y ;; Ok (bx ++ by_)
            | _ => Err TypeError                  (* unexpected keyword is_between_predicate *)
            end
          else validate ord known r) ;;
    Ok (a ++ b)
  | NBoolC ty l r =>                                                (* sql.py:1495-1508 *)
    a <- validate ord known l ;; a' <- bool_errors ord (upper ty) l known ;;
    b <- validate ord known r ;; b' <- bool_errors ord (upper ty) r known ;;
    Ok (a ++ a' ++ b ++ b')
  | NReplace _ args =>                                              (* sql.py:1560-1564 *)
    rconcat (fun a => match a with
                      | NAlias _ (inr x) _ => validate ord known x
                      | _ => Err AttributeError
                      end) args
  | _ => Ok []
  end.
