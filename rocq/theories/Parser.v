(** Model of sqlvalidator/grammar/lexer.py, every parser class.

    The mutually recursive parsers are written with open recursion: each body takes the record
    [P] of the parsers to call, and [parsers n] ties the knot with fuel [n].  A token iterator is
    a list of tokens plus [eos] (see Tokeniser); a parser returns the remaining tokens when its
    caller can still read from the same iterator.  Python's [None] token variable is [option]. *)
From Verif Require Import PyStr PyFloat Tokeniser Ast.
Local Open Scope str_scope.

(** Keyword arguments of [ExpressionParser.parse], lexer.py:546-554. *)
Record eopts := mk_eopts {
  o_right_hand : bool; o_can_be_type : bool; o_can_alias : bool;
  o_until : list str; o_first : option str; o_chained : bool }.
Definition opts0 : eopts := mk_eopts false false true [] None false.
Definition opts_rh (until : list str) : eopts := mk_eopts true false true until None false.
Definition opts_until (until : list str) : eopts := mk_eopts false false true until None false.

Definition expr_res := R (node * option str * list str).
Record parsers_t := mk_parsers {
  p_expr : option exn -> eopts -> list str -> expr_res;   (* ExpressionParser.parse *)
  p_select : option exn -> list str -> R node;            (* SelectStatementParser.parse *)
  p_from : list str -> R node;                            (* FromStatementParser.parse *)
  p_stmt : option exn -> list str -> R node }.            (* SQLStatementParser.parse *)

Definition olow_is (o : option str) (s : str) : bool := opt_eqb (olower o) s.
Definition olow_in (o : option str) (l : list str) : bool := opt_mem (olower o) l.
Definition is_none {A} (o : option A) : bool := match o with None => true | _ => false end.

(** lexer.py:934-947 StringParser.parse *)
Definition string_parse (eos : option exn) (ts : list str) (q : str) (prefix : option str)
  : R (node * list str) :=
  '(c, ts) <- next_opt eos ts ;;
  if opt_eqb c q then Ok (NString [] q prefix, ts)
  else
    '(endq, ts) <- next_req eos ts ;;
    match c with
    | Some v => if str_eqb q endq then Ok (NString v q prefix, ts) else Err ValueError
    | None => Err ValueError   (* unreachable: next(tokens) raised before *)
    end.

(** lexer.py:505-541 ExpressionListParser.parse (always on an iterator over a list).  The Python
    loop reads one token ahead; here [acc] is [expression_tokens] and the head of the list is
    [next_token].  Each turn appends the token, then looks at the following one. *)
Fixpoint exprlist_loop (P : parsers_t) (can_be_type : bool) (acc : list str)
    (par sq : Z) (in_string : bool) (ts : list str) : R (list node) :=
  match ts with
  | [] => Ok []
  | t :: r =>
    let acc := acc ++ [t] in
    let '(par, sq, in_string) :=
      if str_eqb t "(" then ((par + 1)%Z, sq, in_string)
      else if str_eqb t ")" then ((par - 1)%Z, sq, in_string)
      else if str_eqb t "[" then (par, (sq + 1)%Z, in_string)
      else if str_eqb t "]" then (par, (sq - 1)%Z, in_string)
      else if mem t QUOTES then (par, sq, negb in_string)
      else (par, sq, in_string) in
    match r with
    | [] =>
      '(e, _, _) <- p_expr P None (mk_eopts false can_be_type true [] None false) acc ;; Ok [e]
    | n :: r' =>
      if str_eqb n "," && Z.eqb par 0 && Z.eqb sq 0 && negb in_string then
        '(e, _, _) <- p_expr P None (mk_eopts false can_be_type true [] None false) acc ;;
        es <- exprlist_loop P can_be_type [] par sq in_string r' ;;
        Ok (e :: es)
      else exprlist_loop P can_be_type acc par sq in_string r
    end
  end.
Definition exprlist (P : parsers_t) (can_be_type : bool) (ts : list str) : R (list node) :=
  exprlist_loop P can_be_type [] 0 0 false ts.

(** lexer.py:464-479 OrderByItemParser.parse *)
Definition orderby_item (P : parsers_t) (ts : list str) : R node :=
  '(et, nt, _) <- until_one_of None ["asc"; "desc"] None [] ts ;;
  '(e, _, _) <- p_expr P None opts0 et ;;
  Ok (NOrderItem e (olow_is nt "asc") (olow_is nt "desc")).

(** lexer.py:448-461 OrderByParser.parse; the loop reads one item per turn *)
Fixpoint orderby_loop (P : parsers_t) (k : nat) (ts : list str) : R (list node) :=
  match k with
  | O => Err OutOfFuel
  | S k =>
    '(et, nt, ts) <- until_one_of None [","] None [] ts ;;
    e <- orderby_item P et ;;
    if truthy nt then es <- orderby_loop P k ts ;; Ok (e :: es) else Ok [e]
  end.
Definition orderby (P : parsers_t) (ts : list str) : R (list node) :=
  orderby_loop P (S (length ts)) ts.

(** lexer.py:423-436 GroupByParser.parse: arguments and rollup flag *)
Definition groupby (P : parsers_t) (ts : list str) : R (list node * bool) :=
  '(t, ts) <- next_req None ts ;;
  let rollup := str_eqb (lower t) "rollup" in
  '(et, _, _) <- until_one_of None [] (if rollup then None else Some t) [] ts ;;
  args <- exprlist P false et ;;
  Ok (args, rollup).

(** lexer.py:482-495 LimitClauseParser.parse *)
Definition limit_clause (P : parsers_t) (ts : list str) : R (bool * option node) :=
  '(t, ts) <- next_req None ts ;;
  if str_eqb (lower t) "all" then Ok (true, None)
  else
    '(et, _, _) <- until_one_of None [] (Some t) [] ts ;;
    '(e, _, _) <- p_expr P None opts0 et ;;
    Ok (false, Some e).

(** lexer.py:950-977 CaseParser.parse; [nt] is the loop variable next_token *)
Fixpoint case_loop (P : parsers_t) (k : nat) (nt : option str) (ts : list str)
    (whens : list (node * node)) (els : option node) : R (list (node * node) * option node) :=
  match k with
  | O => Err OutOfFuel
  | S k =>
    if truthy nt then
      if olow_is nt "when" then
        '(et, _, ts) <- until_one_of None ["then"] None [] ts ;;
        '(w, _, _) <- p_expr P None opts0 et ;;
        '(et, nt, ts) <- until_one_of None ["when"; "else"] None [] ts ;;
        '(t, _, _) <- p_expr P None opts0 et ;;
        case_loop P k nt ts (whens ++ [(w, t)]) els
      else if olow_is nt "else" then
        '(et, nt, ts) <- until_one_of None [] None [] ts ;;
        '(e, _, _) <- p_expr P None opts0 et ;;
        case_loop P k nt ts whens (Some e)
      else case_loop P k nt ts whens els   (* neither branch: the Python loop would spin *)
    else Ok (whens, els)
  end.
Definition case_parse (P : parsers_t) (ts : list str) : R node :=
  '(t, ts) <- next_req None ts ;;
  if str_eqb (lower t) "when" then
    '(whens, els) <- case_loop P (S (S (length ts))) (Some t) ts [] None ;;
    Ok (NCase None whens els)
  else
    '(et, nt, ts) <- until_one_of None ["when"] (Some t) [] ts ;;
    '(e, _, _) <- p_expr P None opts0 et ;;
    '(whens, els) <- case_loop P (S (S (length ts))) nt ts [] None ;;
    Ok (NCase (Some e) whens els).

(** ** ExpressionParser.parse, lexer.py:544-931, in five consecutive parts *)

(** lexer.py:560-599: expressions recognised from the first token.  Result: the expression if
    any, next_token, remaining tokens. *)
Definition expr_first (P : parsers_t) (eos : option exn) (o : eopts) (main : str) (ts : list str)
  : R (option node * option str * list str) :=
  if mem main QUOTES then
    '(e, ts) <- string_parse eos ts main None ;; Ok (Some e, None, ts)
  else if isdigit main then Ok (Some (NInt (Z.of_N (N_of_digits main))), None, ts)
  else if isdigit (no_dots main) then t <- float_text main ;; Ok (Some (NFloat t), None, ts)
  else if mem (lower main) BOOLEAN_VALUES then
    Ok (Some (NBool (mem (lower main) TRUE_VALUES)), None, ts)
  else if mem (lower main) NULL_VALUES then Ok (Some NNull, None, ts)
  else if str_eqb (lower main) "not" then
    '(e, nt, ts) <- p_expr P eos (opts_rh (o_until o)) ts ;; Ok (Some (NNeg e), nt, ts)
  else if str_eqb main "(" then
    '(at_, ts) <- until_close eos None ts ;;
    args <- exprlist P false at_ ;;
    Ok (Some (NParen args), None, ts)
  else if str_eqb main "[" then
    '(at_, nt, ts) <- until_one_of eos ["]"] None [] ts ;;
    _ <- rassert (opt_eqb nt "]") ;;
    args <- exprlist P false at_ ;;
    '(nt, ts) <- next_opt eos ts ;;
    Ok (Some (NArray args), nt, ts)
  else if str_eqb (lower main) "case" then
    '(at_, nt, ts) <- until_one_of eos ["end"] None [] ts ;;
    _ <- rassert (olow_is nt "end") ;;
    '(nt, ts) <- next_opt eos ts ;;
    e <- case_parse P at_ ;;
    Ok (Some e, nt, ts)
  else if str_eqb (lower main) "select" then
    '(at_, _, ts) <- until_one_of eos [] None [] ts ;;
    '(nt, ts) <- next_opt eos ts ;;
    e <- p_select P None at_ ;;
    Ok (Some e, nt, ts)
  else Ok (None, None, ts).

(** lexer.py:607-621 CAST *)
Definition cast_call (P : parsers_t) (eos : option exn) (o : eopts) (ts : list str)
  : R (node * list str) :=
  '(ct, nt, ts) <- until_one_of eos ["as"] None [] ts ;;
  '(col, _, _) <- p_expr P None (opts_rh (o_until o)) ct ;;
  _ <- rassert (olow_is nt "as") ;;
  '(ty, ts) <- next_req eos ts ;;
  '(nt, ts) <- next_req eos ts ;;
  _ <- rassert (str_eqb (lower nt) ")") ;;
  Ok (NCast col ty, ts).

(** lexer.py:622-676 ARRAY_AGG *)
Definition array_agg_call (P : parsers_t) (eos : option exn) (o : eopts) (ts : list str)
  : R (node * list str) :=
  '(t, ts) <- next_req eos ts ;;
  let distinct := str_eqb (lower t) "distinct" in
  let first := if distinct then None else Some t in
  '(ct, nt, ts) <- until_one_of eos [")"; "ignore"; "respects"; "order"; "limit"] first [] ts ;;
  '(col, _, _) <- p_expr P None (opts_until (o_until o)) ct ;;
  '(ign, resp, nt, ts) <-
    (if olow_is nt "ignore" then
       '(t, ts) <- next_req eos ts ;;
       _ <- rassert (str_eqb (lower t) "nulls") ;;
       '(t, ts) <- next_req eos ts ;; Ok (true, false, Some t, ts)
     else if olow_is nt "respect" then
       '(t, ts) <- next_req eos ts ;;
       _ <- rassert (str_eqb (lower t) "nulls") ;;
       '(t, ts) <- next_req eos ts ;; Ok (false, true, Some t, ts)
     else Ok (false, false, nt, ts)) ;;
  '(order, nt, ts) <-
    (if olow_is nt "order" then
       '(t, ts) <- next_req eos ts ;;
       _ <- rassert (str_eqb (lower t) "by") ;;
       '(et, nt, ts) <- until_one_of eos ["limit"; ")"] None [] ts ;;
       items <- orderby P et ;;
       Ok (Some items, nt, ts)
     else Ok (None, nt, ts)) ;;
  '(limit, nt, ts) <-
    (if olow_is nt "limit" then
       '(t, ts) <- next_req eos ts ;;
       n <- py_int t ;;
       '(t, ts) <- next_req eos ts ;; Ok (Some n, Some t, ts)
     else Ok (None, nt, ts)) ;;
  _ <- rassert (olow_is nt ")") ;;
  Ok (NArrayAgg col distinct ign resp order limit, ts).

(** lexer.py:677-690 COUNT *)
Definition count_call (P : parsers_t) (eos : option exn) (ts : list str) : R (node * list str) :=
  '(t, ts) <- next_req eos ts ;;
  let distinct := str_eqb (lower t) "distinct" in
  '(at_, ts) <- until_close eos (if distinct then None else Some t) ts ;;
  args <- exprlist P false at_ ;;
  Ok (NCount args distinct, ts).

(** lexer.py:691-699 any other function *)
Definition other_call (P : parsers_t) (eos : option exn) (o : eopts) (main : str) (ts : list str)
  : R (node * list str) :=
  '(at_, ts) <- until_close eos None ts ;;
  args <- exprlist P (o_can_be_type o || existsb (fun t => str_eqb (lower t) "timestamp_trunc") at_)
            at_ ;;
  Ok (NFun main args, ts).

(** lexer.py:606-713: a function call, with an optional FILTER *)
Definition call (P : parsers_t) (eos : option exn) (o : eopts) (main : str) (ts : list str)
  : R (node * option str * list str) :=
  '(e, ts) <-
    (if str_eqb (lower main) "cast" then cast_call P eos o ts
     else if str_eqb (lower main) "array_agg" then array_agg_call P eos o ts
     else if str_eqb (lower main) "count" then count_call P eos ts
     else other_call P eos o main ts) ;;
  '(nt, ts) <- next_opt eos ts ;;
  if truthy nt && olow_is nt "filter" then
    '(t, ts) <- next_req eos ts ;;
    _ <- rassert (str_eqb t "(") ;;
    '(at_, ts) <- until_close eos None ts ;;
    match at_ with
    | [] => Err IndexError
    | w :: rest =>
      _ <- rassert (str_eqb (lower w) "where") ;;
      '(cond, _, _) <- p_expr P None (mk_eopts false false false [] None false) rest ;;
      '(nt, ts) <- next_opt eos ts ;;
      Ok (NFiltered e cond, nt, ts)
    end
  else Ok (e, nt, ts).

(** lexer.py:605-754: expressions that need the next token; [nt] is next_token *)
Definition expr_second (P : parsers_t) (eos : option exn) (o : eopts) (main : str)
    (nt : option str) (ts : list str) : expr_res :=
  if opt_eqb nt "(" then call P eos o main ts
  else if mem (lower main) PARTS && olow_is nt "from" then
    '(e, nt, ts) <- p_expr P eos (opts_until (o_until o)) ts ;; Ok (NDatePart main e, nt, ts)
  else if mem (lower main) TYPE_VALUES && o_can_be_type o then Ok (NType main, nt, ts)
  else if opt_eqb nt "[" then
    '(at_, _, ts) <- until_one_of eos ["]"] None [] ts ;;
    args <- exprlist P false at_ ;;
    '(nt, ts) <- next_opt eos ts ;;
    Ok (NIndex (NColumn main) args, nt, ts)
  else if str_eqb main "-" && match nt with Some n => isdigit n | None => false end then
    let n := match nt with Some n => n | None => [] end in
    '(nt, ts) <- next_opt eos ts ;;
    Ok (NInt (- Z.of_N (N_of_digits n)), nt, ts)
  else if str_eqb main "-" && match nt with Some n => isdigit (no_dots n) | None => false end then
    t <- float_text (match nt with Some n => n | None => [] end) ;;
    '(nt, ts) <- next_opt eos ts ;;
    Ok (NFloat (45%N :: t), nt, ts)
  else if mem (lower main) PREFIXES && olow_in nt QUOTES then
    (* next_token stays the opening quote, as in the code *)
    '(e, ts) <- string_parse eos ts (match nt with Some q => q | None => [] end) (Some main) ;;
    Ok (e, nt, ts)
  else Ok (NColumn main, nt, ts).

(** lexer.py:756-800 OVER (...) *)
Definition over_clause (P : parsers_t) (eos : option exn) (e : node) (nt : option str)
    (ts : list str) : expr_res :=
  if olow_is nt "over" then
    '(op, ts) <- next_opt eos ts ;;
    if negb (opt_eqb op "(") then Err (ParsingError "expected '('") else
    '(at_, ts) <- until_close eos None ts ;;
    '(ant, at_) <- next_opt None at_ ;;
    '(partition, ant, at_) <-
      (if olow_is ant "partition" then
         '(ant, at_) <- next_opt None at_ ;;
         if negb (truthy ant) || negb (olow_is ant "by")
         then Err (ParsingError "Missing BY after PARTITION") else
         '(et, ant, at_) <- until_one_of None ["order"; "rows"; "range"] None [] at_ ;;
         es <- exprlist P false et ;;
         Ok (Some es, ant, at_)
       else Ok (None, ant, at_)) ;;
    '(order, ant, at_) <-
      (if olow_is ant "order" then
         '(ant, at_) <- next_opt None at_ ;;
         if negb (truthy ant) || negb (olow_is ant "by")
         then Err (ParsingError "Missing BY after ORDER") else
         '(et, ant, at_) <- until_one_of None ["rows"; "range"] None [] at_ ;;
         items <- orderby P et ;;
         Ok (Some items, ant, at_)
       else Ok (None, ant, at_)) ;;
    frame <-
      (match ant with
       | Some rr =>
         if mem (lower rr) ["rows"; "range"] then
           '(et, _, _) <- until_one_of None [] None [] at_ ;; Ok (Some (rr, join " " et))
         else Ok None
       | None => Ok None
       end) ;;
    '(nt, ts) <- next_opt eos ts ;;
    Ok (NAnalytics e partition order frame, nt, ts)
  else Ok (e, nt, ts).

(** lexer.py:802-806 chained columns *)
Fixpoint dot_loop (P : parsers_t) (k : nat) (eos : option exn) (until : list str) (e : node)
    (nt : option str) (ts : list str) : expr_res :=
  if opt_eqb nt "." then
    match k with
    | O => Err OutOfFuel
    | S k =>
      '(r, nt, ts) <- p_expr P eos (mk_eopts false false true until None true) ts ;;
      dot_loop P k eos until (NChained e r) nt ts
    end
  else Ok (e, nt, ts).

(** lexer.py:818-824 indices *)
Fixpoint index_loop (P : parsers_t) (k : nat) (eos : option exn) (e : node) (nt : option str)
    (ts : list str) : expr_res :=
  if opt_eqb nt "[" then
    match k with
    | O => Err OutOfFuel
    | S k =>
      '(at_, _, ts) <- until_one_of eos ["]"] None [] ts ;;
      args <- exprlist P false at_ ;;
      '(nt, ts) <- next_opt eos ts ;;
      index_loop P k eos (NIndex e args) nt ts
    end
  else Ok (e, nt, ts).

(** lexer.py:802-824: postfix parts and arithmetic *)
Definition expr_postfix (P : parsers_t) (eos : option exn) (o : eopts) (e : node)
    (nt : option str) (ts : list str) : expr_res :=
  '(e, nt, ts) <- dot_loop P (S (length ts)) eos (o_until o) e nt ts ;;
  '(e, nt, ts) <-
    (match nt with
     | Some op =>
       if mem op ["+"; "-"; "*"; "/"] && negb (o_chained o) then
         '(r, nt, ts) <- p_expr P eos (opts_rh (o_until o)) ts ;; Ok (NArith op e r, nt, ts)
       else Ok (e, nt, ts)
     | None => Ok (e, nt, ts)
     end) ;;
  index_loop P (S (length ts)) eos e nt ts.

(** lexer.py:829-873 comparison, BETWEEN and bitwise operators *)
Definition expr_compare (P : parsers_t) (eos : option exn) (o : eopts) (e : node)
    (nt : option str) (ts : list str) : expr_res :=
  match nt with
  | Some sym =>
    if mem (lower sym) PREDICATES then
      '(first, symbol, ts) <-
        (if str_eqb (lower sym) "is" then
           '(t, ts) <- next_req eos ts ;;
           if str_eqb (lower t) "not" then Ok (None, "is not", ts) else Ok (Some t, sym, ts)
         else if str_eqb (lower sym) "not" then
           '(t, ts) <- next_req eos ts ;;
           if str_eqb (lower t) "in" then Ok (None, "not in", ts) else Ok (Some t, sym, ts)
         else Ok (None, sym, ts)) ;;
      '(r, nt, ts) <- p_expr P eos (mk_eopts true false true (o_until o) first false) ts ;;
      Ok (NCond e symbol r, nt, ts)
    else if str_eqb (lower sym) "between" then
      '(rl, nt, ts) <- p_expr P eos (opts_rh (o_until o)) ts ;;
      if negb (olow_is nt "and") then Err (ParsingError "expected AND") else
      '(rr, nt, ts) <- p_expr P eos (opts_rh (o_until o)) ts ;;
      Ok (NCond e sym (NBoolC "and" rl rr), nt, ts)
    else if mem sym BITWISE_OPERATORS then
      '(r, nt, ts) <- p_expr P eos (opts_rh (o_until o)) ts ;;
      Ok (NBitwise e sym r, nt, ts)
    else Ok (e, nt, ts)
  | None => Ok (e, nt, ts)
  end.

(** lexer.py:875-888 AND / OR; an alias of the right operand is moved outside *)
Definition expr_bool (P : parsers_t) (eos : option exn) (o : eopts) (e : node)
    (nt : option str) (ts : list str) : expr_res :=
  match nt with
  | Some sym =>
    if mem (lower sym) BOOL_PREDICATES then
      '(r, nt, ts) <- p_expr P eos (opts_until (o_until o)) ts ;;
      match r with
      | NAlias inner a w => Ok (NAlias (NBoolC sym e inner) a w, nt, ts)
      | _ => Ok (NBoolC sym e r, nt, ts)
      end
    else Ok (e, nt, ts)
  | None => Ok (e, nt, ts)
  end.

(** lexer.py:890-897 and 899-910: EXCEPT (...) and REPLACE (...) *)
Definition expr_except (P : parsers_t) (eos : option exn) (e : node)
    (nt : option str) (ts : list str) : expr_res :=
  if olow_is nt "except" then
    '(op, ts) <- next_opt eos ts ;;
    if negb (opt_eqb op "(") then Err (ParsingError "expected '('") else
    '(at_, ts) <- until_close eos None ts ;;
    args <- exprlist P false at_ ;;
    '(nt, ts) <- next_opt eos ts ;;
    Ok (NExcept e args, nt, ts)
  else Ok (e, nt, ts).
Definition is_as_alias (n : node) : bool := match n with NAlias _ _ true => true | _ => false end.
Definition expr_replace (P : parsers_t) (eos : option exn) (e : node)
    (nt : option str) (ts : list str) : expr_res :=
  if olow_is nt "replace" then
    '(op, ts) <- next_opt eos ts ;;
    if negb (opt_eqb op "(") then Err (ParsingError "expected '('") else
    '(at_, ts) <- until_close eos None ts ;;
    args <- exprlist P false at_ ;;
    _ <- rassert (forallb is_as_alias args) ;;
    '(nt, ts) <- next_opt eos ts ;;
    Ok (NReplace e args, nt, ts)
  else Ok (e, nt, ts).

(** lexer.py:912-931 alias *)
Definition is_string_node (n : node) : bool := match n with NString _ _ _ => true | _ => false end.
Definition expr_alias (P : parsers_t) (eos : option exn) (o : eopts) (e : node)
    (nt : option str) (ts : list str) : expr_res :=
  match nt with
  | Some t =>
    if negb (str_eqb t ")") && negb (mem t QUOTES && is_string_node e) && negb (str_eqb t ";")
       && negb (mem (lower t) (o_until o)) && o_can_alias o
    then
      if str_eqb (lower t) "as" then
        '(a, _, ts) <- p_expr P eos (opts_rh (o_until o)) ts ;;
        '(nt, ts) <- next_opt eos ts ;;
        Ok (NAlias e (inr a) true, nt, ts)
      else if mem t QUOTES then
        '(a, ts) <- string_parse eos ts t None ;;
        '(nt, ts) <- next_opt eos ts ;;
        Ok (NAlias e (inr a) false, nt, ts)
      else
        '(nt, ts) <- next_opt eos ts ;;
        Ok (NAlias e (inl t) false, nt, ts)
    else Ok (e, nt, ts)
  | None => Ok (e, nt, ts)
  end.

(** lexer.py:826-931: what follows unless the expression is a right operand or chained *)
Definition expr_tail (P : parsers_t) (eos : option exn) (o : eopts) (e : node)
    (nt : option str) (ts : list str) : expr_res :=
  if o_right_hand o || o_chained o then Ok (e, nt, ts)
  else
    '(e, nt, ts) <- expr_compare P eos o e nt ts ;;
    '(e, nt, ts) <- expr_bool P eos o e nt ts ;;
    '(e, nt, ts) <- expr_except P eos e nt ts ;;
    '(e, nt, ts) <- expr_replace P eos e nt ts ;;
    expr_alias P eos o e nt ts.

(** lexer.py:557-931 ExpressionParser.parse *)
Definition expr_head (P : parsers_t) (eos : option exn) (o : eopts) (main : str) (ts : list str)
  : expr_res :=
  '(eo, nt, ts) <- expr_first P eos o main ts ;;
  '(nt, ts) <- (if is_none nt then next_opt eos ts else Ok (nt, ts)) ;;
  match eo with
  | Some e => Ok (e, nt, ts)
  | None => expr_second P eos o main nt ts
  end.
Definition expr_body (P : parsers_t) (eos : option exn) (o : eopts) (ts : list str) : expr_res :=
  '(main, ts) <-
    (match o_first o with
     | Some (c :: f) => Ok (c :: f, ts)
     | _ => next_req eos ts
     end) ;;
  '(e, nt, ts) <- expr_head P eos o main ts ;;
  '(e, nt, ts) <- over_clause P eos e nt ts ;;
  '(e, nt, ts) <- expr_postfix P eos o e nt ts ;;
  expr_tail P eos o e nt ts.

(** ** Statements *)

(** lexer.py:73-179 SelectStatementParser.parse *)
Definition SELECT_KEYWORDS : list str :=
  [";"; "from"; "where"; "group"; "having"; "order"; "limit"; "offset"].
Definition select_body (P : parsers_t) (eos : option exn) (ts : list str) : R node :=
  '(t, ts) <- next_req eos ts ;;
  '(sel_all, sel_distinct, don, first, ts) <-
    (if str_eqb (lower t) "all" then Ok (true, false, None, None, ts)
     else if str_eqb (lower t) "distinct" then
       '(t, ts) <- next_req eos ts ;;
       if str_eqb (lower t) "on" then
         '(_, ts) <- next_req eos ts ;;
         '(dt, ts) <- until_close eos None ts ;;
         es <- exprlist P false dt ;;
         Ok (false, true, Some es, None, ts)
       else Ok (false, true, None, Some t, ts)
     else Ok (false, false, None, Some t, ts)) ;;
  '(et, nt, ts) <- until_one_of eos SELECT_KEYWORDS first [] ts ;;
  exprs <- exprlist P false et ;;
  '(from_, nt, ts) <-
    (if olow_is nt "from" then
       '(et, nt, ts) <- until_one_of eos
          ["where"; "group"; "having"; "order"; "limit"; "offset"; ";"] None
          [("with", "offset")] ts ;;
       f <- p_from P et ;;
       Ok (Some f, nt, ts)
     else Ok (None, nt, ts)) ;;
  '(where_, nt, ts) <-
    (if olow_is nt "where" then
       '(e, nt, ts) <- p_expr P eos
          (mk_eopts false false false ["group"; "having"; "order"; "limit"; "offset"; ";"] None false)
          ts ;;
       Ok (Some e, nt, ts)
     else Ok (None, nt, ts)) ;;
  '(group, nt, ts) <-
    (if olow_is nt "group" then
       '(nt, ts) <- next_opt eos ts ;;
       '(each, nt, ts) <-
         (if olow_is nt "each" then '(nt, ts) <- next_opt eos ts ;; Ok (true, nt, ts)
          else Ok (false, nt, ts)) ;;
       if negb (olow_is nt "by") then Err (ParsingError "Missing BY after GROUP") else
       '(et, nt, ts) <- until_one_of eos ["having"; "order"; "limit"; "offset"; ";"] None [] ts ;;
       '(args, rollup) <- groupby P et ;;
       Ok (Some (args, rollup, each), nt, ts)
     else Ok (None, nt, ts)) ;;
  '(having, nt, ts) <-
    (if olow_is nt "having" then
       '(e, nt, ts) <- p_expr P eos
          (mk_eopts false false false ["order"; "limit"; "offset"; ";"] None false) ts ;;
       Ok (Some e, nt, ts)
     else Ok (None, nt, ts)) ;;
  '(order, nt, ts) <-
    (if olow_is nt "order" then
       '(nt, ts) <- next_opt eos ts ;;
       if negb (olow_is nt "by") then Err (ParsingError "Missing BY after ORDER") else
       '(et, nt, ts) <- until_one_of eos ["limit"; "offset"; ";"] None [] ts ;;
       items <- orderby P et ;;
       Ok (Some items, nt, ts)
     else Ok (None, nt, ts)) ;;
  '(limit, nt, ts) <-
    (if olow_is nt "limit" then
       '(et, nt, ts) <- until_one_of eos ["offset"; ";"] None [] ts ;;
       l <- limit_clause P et ;;
       Ok (Some l, nt, ts)
     else Ok (None, nt, ts)) ;;
  '(offset, nt, ts) <-
    (if olow_is nt "offset" then
       '(et, nt, ts) <- until_one_of eos [";"] None [] ts ;;
       '(e, _, _) <- p_expr P None opts0 et ;;
       Ok (Some e, nt, ts)
     else Ok (None, nt, ts)) ;;
  Ok (NSelect exprs sel_all sel_distinct don from_ where_ group having order limit offset
        (opt_eqb nt ";")).

(** lexer.py:383-403 WithStatementParser.parse.  One turn of the loop reads one named query and
    the token after it. *)
Fixpoint with_loop (P : parsers_t) (k : nat) (eos : option exn) (ts : list str)
  : R (list (str * node) * list str) :=
  match k with
  | O => Err OutOfFuel
  | S k =>
    '(name, ts) <- next_req eos ts ;;
    '(t, ts) <- next_req eos ts ;;
    _ <- rassert (str_eqb (lower t) "as") ;;
    '(t, ts) <- next_req eos ts ;;
    _ <- rassert (str_eqb (lower t) "(") ;;
    '(at_, ts) <- until_close eos None ts ;;
    q <- p_stmt P None at_ ;;
    '(sep, ts) <- next_req eos ts ;;
    if str_eqb (lower sep) "select" then Ok ([(name, q)], ts)
    else '(qs, ts) <- with_loop P k eos ts ;; Ok ((name, q) :: qs, ts)
  end.
Definition with_parse (P : parsers_t) (eos : option exn) (ts : list str) : R node :=
  '(qs, ts) <- with_loop P (S (length ts)) eos ts ;;
  s <- p_select P eos ts ;;
  Ok (NWith qs s).

(** lexer.py:62-70 SQLStatementParser.parse *)
Definition stmt_body (P : parsers_t) (eos : option exn) (ts : list str) : R node :=
  '(t, ts) <- next_req eos ts ;;
  if str_eqb (lower t) "select" then p_select P eos ts
  else if str_eqb (lower t) "with" then with_parse P eos ts
  else Err (ParsingError []).

(** lexer.py:228-237 (and 260-269, 302-311, 339-348): an alias after a FROM item; [t] is
    next_token. *)
Definition from_alias (e : node) (t : str) (ts : list str) : R (node * option str * list str) :=
  '(with_as, alias, ts) <-
    (if str_eqb (lower t) "as" then '(a, ts) <- next_req None ts ;; Ok (true, a, ts)
     else Ok (false, t, ts)) ;;
  '(alias, ts) <-
    (if mem alias QUOTES then '(a, ts) <- string_parse None ts alias None ;; Ok (inr a, ts)
     else Ok (inl alias, ts)) ;;
  '(nt, ts) <- next_opt None ts ;;
  Ok (NAlias e alias with_as, nt, ts).

(** lexer.py:323-380 UnnestParser.parse *)
Definition unnest_parse (P : parsers_t) (ts : list str) : R (node * option str * list str) :=
  '(t, ts) <- next_req None ts ;;
  _ <- rassert (str_eqb t "(") ;;
  '(at_, ts) <- until_close None None ts ;;
  args <- exprlist P false at_ ;;
  '(nt, ts) <- next_opt None ts ;;
  '(e, nt, ts) <-
    (match nt with
     | Some t =>
       if negb (mem (lower t) JOIN_VALUES) && negb (mem (lower t) SET_OPERATORS)
          && negb (str_eqb (lower t) "with")
       then from_alias (NFun "unnest" args) t ts
       else Ok (NFun "unnest" args, nt, ts)
     | None => Ok (NFun "unnest" args, nt, ts)
     end) ;;
  if olow_is nt "with" then
    '(t, ts) <- next_req None ts ;;
    _ <- rassert (str_eqb (lower t) "offset") ;;
    '(nt, ts) <- next_opt None ts ;;
    match nt with
    | Some t =>
      if negb (mem (lower t) JOIN_VALUES) && negb (mem (lower t) SET_OPERATORS) then
        '(was, a, ts) <-
          (if str_eqb (lower t) "as" then '(a, ts) <- next_req None ts ;; Ok (true, a, ts)
           else Ok (false, t, ts)) ;;
        '(nt, ts) <- next_opt None ts ;;
        Ok (NUnnest e true was (Some a), nt, ts)
      else Ok (NUnnest e true false None, nt, ts)
    | None => Ok (NUnnest e true false None, nt, ts)
    end
  else Ok (NUnnest e false false None, nt, ts).

(** lexer.py:194-203: the dotted continuation of a quoted table name *)
Fixpoint table_dot_loop (P : parsers_t) (k : nat) (e : node) (nt : option str) (ts : list str)
  : R (node * option str * list str) :=
  if opt_eqb nt "." then
    match k with
    | O => Err OutOfFuel
    | S k =>
      '(r, nt, ts) <- p_expr P None (mk_eopts false false true [] None true) ts ;;
      table_dot_loop P k (NChained e r) nt ts
    end
  else Ok (e, nt, ts).

(** lexer.py:185-221: the first FROM item *)
Definition from_item (P : parsers_t) (ts : list str) : R (node * option str * list str) :=
  '(t, ts) <- next_req None ts ;;
  if str_eqb t "(" then
    '(at_, ts) <- until_close None None ts ;;
    arg <- (match p_stmt P None at_ with
            | Err (ParsingError _) => p_from P at_
            | r => r
            end) ;;
    '(nt, ts) <- next_opt None ts ;;
    Ok (NParen [arg], nt, ts)
  else if mem t QUOTES then
    '(name, ts) <- string_parse None ts t None ;;
    '(nt, ts) <- next_opt None ts ;;
    '(name, nt, ts) <- table_dot_loop P (S (length ts)) name nt ts ;;
    Ok (NTable name false, nt, ts)
  else if str_eqb t "[" then
    '(at_, nt, ts) <- until_one_of None ["]"] None [] ts ;;
    '(e, _, _) <- p_expr P None opts0 at_ ;;
    _ <- rassert (opt_eqb nt "]") ;;
    '(nt, ts) <- next_opt None ts ;;
    Ok (NTable e true, nt, ts)
  else if str_eqb (lower t) "unnest" then unnest_parse P ts
  else
    '(at_, nt, ts) <- until_one_of None (JOIN_VALUES ++ SET_OPERATORS) (Some t) [] ts ;;
    '(e, _, _) <- p_expr P None opts0 at_ ;;
    Ok (NTable e false, nt, ts).

(** lexer.py:239-269: UNION / INTERSECT / EXCEPT *)
Fixpoint set_loop (P : parsers_t) (k : nat) (e : node) (nt : option str) (ts : list str)
  : R (node * option str * list str) :=
  if olow_in nt SET_OPERATORS then
    match k with
    | O => Err OutOfFuel
    | S k =>
      '(et, nt, ts) <- until_not_in None SET_OPERATORS nt ts ;;
      let op := upper (join " " et) in
      '(et, nt, ts) <- until_one_of None SET_OPERATORS nt [] ts ;;
      right <-
        (match et with
         | [] => Err IndexError
         | t :: r => if str_eqb (lower t) "select" then p_select P None r else p_from P et
         end) ;;
      let e := NCombined op e right in
      '(e, nt, ts) <-
        (match nt with
         | Some t =>
           if negb (mem (lower t) SET_OPERATORS) then from_alias e t ts else Ok (e, nt, ts)
         | None => Ok (e, nt, ts)
         end) ;;
      set_loop P k e nt ts
    end
  else Ok (e, nt, ts).

(** lexer.py:271-311: joins.  For CROSS JOIN and comma the rest of the tokens, [next_token]
    included, is parsed as one FROM; when [next_token] is [None] the Python list is [[None]],
    on which the parser raises StopIteration exactly as on the empty list. *)
Fixpoint join_loop (P : parsers_t) (k : nat) (e : node) (nt : option str) (ts : list str)
  : R (node * option str * list str) :=
  if olow_in nt JOIN_VALUES then
    match k with
    | O => Err OutOfFuel
    | S k =>
      '(et, nt, ts) <- until_not_in None JOIN_VALUES nt ts ;;
      let ty := upper (join " " et) in
      '(et, nt, ts) <-
        (if mem ty ["CROSS JOIN"; ","] then
           Ok (match nt with Some t => t :: ts | None => ts end, None, [])
         else until_one_of None ["on"; "using"] nt [] ts) ;;
      right <- p_from P et ;;
      let on_or_using := nt in
      '(et, nt, ts) <- until_one_of None JOIN_VALUES None [] ts ;;
      '(on_, using_) <-
        (if olow_is on_or_using "on" then
           '(c, _, _) <- p_expr P None opts0 et ;; Ok (Some c, None)
         else if olow_is on_or_using "using" then
           '(c, _, _) <- p_expr P None opts0 et ;; Ok (None, Some c)
         else Ok (None, None)) ;;
      let e := NJoin ty e right on_ using_ in
      '(e, nt, ts) <-
        (match nt with
         | Some t =>
           if negb (mem (lower t) JOIN_VALUES) then from_alias e t ts else Ok (e, nt, ts)
         | None => Ok (e, nt, ts)
         end) ;;
      join_loop P k e nt ts
    end
  else Ok (e, nt, ts).

(** lexer.py:182-313 FromStatementParser.parse *)
Definition from_body (P : parsers_t) (ts : list str) : R node :=
  '(e, nt, ts) <- from_item P ts ;;
  '(e, nt, ts) <-
    (match nt with
     | Some t =>
       if negb (mem (lower t) JOIN_VALUES) && negb (mem (lower t) SET_OPERATORS)
       then from_alias e t ts else Ok (e, nt, ts)
     | None => Ok (e, nt, ts)
     end) ;;
  '(e, nt, ts) <- set_loop P (S (length ts)) e nt ts ;;
  '(e, nt, ts) <- join_loop P (S (length ts)) e nt ts ;;
  Ok e.

Fixpoint parsers (n : nat) : parsers_t :=
  match n with
  | O => mk_parsers (fun _ _ _ => Err OutOfFuel) (fun _ _ => Err OutOfFuel)
           (fun _ => Err OutOfFuel) (fun _ _ => Err OutOfFuel)
  | S n =>
    let P := parsers n in
    mk_parsers (expr_body P) (select_body P) (from_body P) (stmt_body P)
  end.

(** Fuel that always suffices (ProofTerm). *)
Definition parse_fuel (ts : list str) : nat := 4 * length ts + 8.
Definition parse_stmt (eos : option exn) (ts : list str) : R node :=
  p_stmt (parsers (parse_fuel ts)) eos ts.
