(** The parsers of Parser.v with two counts: the calls of the four parsers that call each other
    (ExpressionParser, SelectStatementParser, FromStatementParser, SQLStatementParser), and the tokens
    that are parsed a second time because the first parser raised ParsingError (lexer.py:188-191, the only
    [except] of the parser).  The text of every function is that of Parser.v, in a monad that counts; only the
    [except] is written with [retry].  [ProofParseCost.counted_result] shows that the result is that of Parser.v.
    Not counted: the tokens read by the functions that look for a closing parenthesis or a keyword. *)
From Verif Require Import PyStr PyFloat Tokeniser Ast Parser.
Local Open Scope str_scope.
Local Open Scope list_scope.

(** result, calls, tokens parsed again *)
Definition counted (A : Type) : Type := (R A * (nat * nat))%type.
Definition free {A} (r : R A) : counted A := (r, (0, 0)).
Coercion free : R >-> counted.
Definition cbind {A B} (a : counted A) (f : A -> counted B) : counted B :=
  match a with
  | (Ok x, (k, q)) => match f x with (r, (k', q')) => (r, (k + k', q + q')) end
  | (Err e, kq) => (Err e, kq)
  end.
Definition tick {A} (a : counted A) : counted A := match a with (r, (k, q)) => (r, (S k, q)) end.
(** [try: a except ParsingError: b], on [n] tokens *)
Definition retry {A} (n : nat) (a b : counted A) : counted A :=
  match a with
  | (Err (ParsingError _), (k, q)) => match b with (r, (k', q')) => (r, (k + k', q + q' + n)) end
  | a => a
  end.
Local Notation "x <- e ;; f" := (cbind e (fun x => f)) (at level 61, e at next level, right associativity).
Local Notation "' p <- e ;; f" := (cbind e (fun p => f))
  (at level 61, p pattern, e at next level, right associativity).

Record cparsers_t := mk_cparsers {
  c_expr : option exn -> eopts -> list str -> counted (node * option str * list str);
  c_select : option exn -> list str -> counted node;
  c_from : list str -> counted node;
  c_stmt : option exn -> list str -> counted node }.

(** lexer.py:505-541 ExpressionListParser.parse (always on an iterator over a list).  The Python
    loop reads one token ahead; here [acc] is [expression_tokens] and the head of the list is
    [next_token].  Each turn appends the token, then looks at the following one. *)
Fixpoint c_exprlist_loop (P : cparsers_t) (can_be_type : bool) (acc : list str)
    (par sq : Z) (in_string : bool) (ts : list str) : counted (list node) :=
  match ts with
  | [] => Ok []
  | t :: r =>
    let acc := acc ++ [t] in
    let '(par, sq, in_string) :=
      if str_eqb t "(" then ((par + 1)%Z, sq, in_string)
      else if str_eqb t ")" then ((par - 1)%Z, sq, in_string)
      else if str_eqb t "[" then (par, (sq + 1)%Z, in_string)
      else if str_eqb t "]" then (par, (sq - 1)%Z, in_string)
      else if mem t QUOTES then (par, sq, negb in_string)
      else (par, sq, in_string) in
    match r with
    | [] =>
      '(e, _, _) <- c_expr P None (mk_eopts false can_be_type true [] None false) acc ;; Ok [e]
    | n :: r' =>
      if str_eqb n "," && Z.eqb par 0 && Z.eqb sq 0 && negb in_string then
        '(e, _, _) <- c_expr P None (mk_eopts false can_be_type true [] None false) acc ;;
        es <- c_exprlist_loop P can_be_type [] par sq in_string r' ;;
        Ok (e :: es)
      else c_exprlist_loop P can_be_type acc par sq in_string r
    end
  end.
Definition c_exprlist (P : cparsers_t) (can_be_type : bool) (ts : list str) : counted (list node) :=
  c_exprlist_loop P can_be_type [] 0 0 false ts.

(** lexer.py:464-479 OrderByItemParser.parse *)
Definition c_orderby_item (P : cparsers_t) (ts : list str) : counted node :=
  '(et, nt, _) <- until_one_of None ["asc"; "desc"] None [] ts ;;
  '(e, _, _) <- c_expr P None opts0 et ;;
  Ok (NOrderItem e (olow_is nt "asc") (olow_is nt "desc")).

(** lexer.py:448-461 OrderByParser.parse; the loop reads one item per turn *)
Fixpoint c_orderby_loop (P : cparsers_t) (k : nat) (ts : list str) : counted (list node) :=
  match k with
  | O => Err OutOfFuel
  | S k =>
    '(et, nt, ts) <- until_one_of None [","] None [] ts ;;
    e <- c_orderby_item P et ;;
    if truthy nt then es <- c_orderby_loop P k ts ;; Ok (e :: es) else Ok [e]
  end.
Definition c_orderby (P : cparsers_t) (ts : list str) : counted (list node) :=
  c_orderby_loop P (S (length ts)) ts.

(** lexer.py:423-436 GroupByParser.parse: arguments and rollup flag *)
Definition c_groupby (P : cparsers_t) (ts : list str) : counted (list node * bool) :=
  '(t, ts) <- next_req None ts ;;
  let rollup := str_eqb (lower t) "rollup" in
  '(et, _, _) <- until_one_of None [] (if rollup then None else Some t) [] ts ;;
  args <- c_exprlist P false et ;;
  Ok (args, rollup).

(** lexer.py:482-495 LimitClauseParser.parse *)
Definition c_limit_clause (P : cparsers_t) (ts : list str) : counted (bool * option node) :=
  '(t, ts) <- next_req None ts ;;
  if str_eqb (lower t) "all" then Ok (true, None)
  else
    '(et, _, _) <- until_one_of None [] (Some t) [] ts ;;
    '(e, _, _) <- c_expr P None opts0 et ;;
    Ok (false, Some e).

(** lexer.py:950-977 CaseParser.parse; [nt] is the loop variable next_token *)
Fixpoint c_case_loop (P : cparsers_t) (k : nat) (nt : option str) (ts : list str)
    (whens : list (node * node)) (els : option node) : counted (list (node * node) * option node) :=
  match k with
  | O => Err OutOfFuel
  | S k =>
    if truthy nt then
      if olow_is nt "when" then
        '(et, _, ts) <- until_one_of None ["then"] None [] ts ;;
        '(w, _, _) <- c_expr P None opts0 et ;;
        '(et, nt, ts) <- until_one_of None ["when"; "else"] None [] ts ;;
        '(t, _, _) <- c_expr P None opts0 et ;;
        c_case_loop P k nt ts (whens ++ [(w, t)]) els
      else if olow_is nt "else" then
        '(et, nt, ts) <- until_one_of None [] None [] ts ;;
        '(e, _, _) <- c_expr P None opts0 et ;;
        c_case_loop P k nt ts whens (Some e)
      else c_case_loop P k nt ts whens els   (* neither branch: the Python loop would spin *)
    else Ok (whens, els)
  end.
Definition c_case_parse (P : cparsers_t) (ts : list str) : counted node :=
  '(t, ts) <- next_req None ts ;;
  if str_eqb (lower t) "when" then
    '(whens, els) <- c_case_loop P (S (S (length ts))) (Some t) ts [] None ;;
    Ok (NCase None whens els)
  else
    '(et, nt, ts) <- until_one_of None ["when"] (Some t) [] ts ;;
    '(e, _, _) <- c_expr P None opts0 et ;;
    '(whens, els) <- c_case_loop P (S (S (length ts))) nt ts [] None ;;
    Ok (NCase (Some e) whens els).

(** ** ExpressionParser.parse, lexer.py:544-931, in five consecutive parts *)

(** lexer.py:560-599: expressions recognised from the first token.  Result: the expression if
    any, next_token, remaining tokens. *)
Definition c_expr_first (P : cparsers_t) (eos : option exn) (o : eopts) (main : str) (ts : list str)
  : counted (option node * option str * list str) :=
  if mem main QUOTES then
    '(e, ts) <- string_parse eos ts main None ;; Ok (Some e, None, ts)
  else if isdigit main then Ok (Some (NInt (Z.of_N (N_of_digits main))), None, ts)
  else if isdigit (no_dots main) then t <- float_text main ;; Ok (Some (NFloat t), None, ts)
  else if mem (lower main) BOOLEAN_VALUES then
    Ok (Some (NBool (mem (lower main) TRUE_VALUES)), None, ts)
  else if mem (lower main) NULL_VALUES then Ok (Some NNull, None, ts)
  else if str_eqb (lower main) "not" then
    '(e, nt, ts) <- c_expr P eos (opts_rh (o_until o)) ts ;; Ok (Some (NNeg e), nt, ts)
  else if str_eqb main "(" then
    '(at_, ts) <- until_close eos None ts ;;
    args <- c_exprlist P false at_ ;;
    Ok (Some (NParen args), None, ts)
  else if str_eqb main "[" then
    '(at_, nt, ts) <- until_one_of eos ["]"] None [] ts ;;
    _ <- rassert (opt_eqb nt "]") ;;
    args <- c_exprlist P false at_ ;;
    '(nt, ts) <- next_opt eos ts ;;
    Ok (Some (NArray args), nt, ts)
  else if str_eqb (lower main) "case" then
    '(at_, nt, ts) <- until_one_of eos ["end"] None [] ts ;;
    _ <- rassert (olow_is nt "end") ;;
    '(nt, ts) <- next_opt eos ts ;;
    e <- c_case_parse P at_ ;;
    Ok (Some e, nt, ts)
  else if str_eqb (lower main) "select" then
    '(at_, _, ts) <- until_one_of eos [] None [] ts ;;
    '(nt, ts) <- next_opt eos ts ;;
    e <- c_select P None at_ ;;
    Ok (Some e, nt, ts)
  else Ok (None, None, ts).

(** lexer.py:607-621 CAST *)
Definition c_cast_call (P : cparsers_t) (eos : option exn) (o : eopts) (ts : list str)
  : counted (node * list str) :=
  '(ct, nt, ts) <- until_one_of eos ["as"] None [] ts ;;
  '(col, _, _) <- c_expr P None (opts_rh (o_until o)) ct ;;
  _ <- rassert (olow_is nt "as") ;;
  '(ty, ts) <- next_req eos ts ;;
  '(nt, ts) <- next_req eos ts ;;
  _ <- rassert (str_eqb (lower nt) ")") ;;
  Ok (NCast col ty, ts).

(** lexer.py:622-676 ARRAY_AGG *)
Definition c_array_agg_call (P : cparsers_t) (eos : option exn) (o : eopts) (ts : list str)
  : counted (node * list str) :=
  '(t, ts) <- next_req eos ts ;;
  let distinct := str_eqb (lower t) "distinct" in
  let first := if distinct then None else Some t in
  '(ct, nt, ts) <- until_one_of eos [")"; "ignore"; "respects"; "order"; "limit"] first [] ts ;;
  '(col, _, _) <- c_expr P None (opts_until (o_until o)) ct ;;
  '(ign, resp, nt, ts) <-
    (if olow_is nt "ignore" then
       '(t, ts) <- next_req eos ts ;;
       _ <- rassert (str_eqb (lower t) "nulls") ;;
       '(t, ts) <- next_req eos ts ;; Ok (true, false, Some t, ts)
     else if olow_is nt "respect" then
       '(t, ts) <- next_req eos ts ;;
       _ <- rassert (str_eqb (lower t) "nulls") ;;
       '(t, ts) <- next_req eos ts ;; Ok (false, true, Some t, ts)
     else Ok (false, false, nt, ts)) ;;
  '(order, nt, ts) <-
    (if olow_is nt "order" then
       '(t, ts) <- next_req eos ts ;;
       _ <- rassert (str_eqb (lower t) "by") ;;
       '(et, nt, ts) <- until_one_of eos ["limit"; ")"] None [] ts ;;
       items <- c_orderby P et ;;
       Ok (Some items, nt, ts)
     else Ok (None, nt, ts)) ;;
  '(limit, nt, ts) <-
    (if olow_is nt "limit" then
       '(t, ts) <- next_req eos ts ;;
       n <- py_int t ;;
       '(t, ts) <- next_req eos ts ;; Ok (Some n, Some t, ts)
     else Ok (None, nt, ts)) ;;
  _ <- rassert (olow_is nt ")") ;;
  Ok (NArrayAgg col distinct ign resp order limit, ts).

(** lexer.py:677-690 COUNT *)
Definition c_count_call (P : cparsers_t) (eos : option exn) (ts : list str) : counted (node * list str) :=
  '(t, ts) <- next_req eos ts ;;
  let distinct := str_eqb (lower t) "distinct" in
  '(at_, ts) <- until_close eos (if distinct then None else Some t) ts ;;
  args <- c_exprlist P false at_ ;;
  Ok (NCount args distinct, ts).

(** lexer.py:691-699 any other function *)
Definition c_other_call (P : cparsers_t) (eos : option exn) (o : eopts) (main : str) (ts : list str)
  : counted (node * list str) :=
  '(at_, ts) <- until_close eos None ts ;;
  args <- c_exprlist P (o_can_be_type o || existsb (fun t => str_eqb (lower t) "timestamp_trunc") at_)
            at_ ;;
  Ok (NFun main args, ts).

(** lexer.py:606-713: a function call, with an optional FILTER *)
Definition c_call (P : cparsers_t) (eos : option exn) (o : eopts) (main : str) (ts : list str)
  : counted (node * option str * list str) :=
  '(e, ts) <-
    (if str_eqb (lower main) "cast" then c_cast_call P eos o ts
     else if str_eqb (lower main) "array_agg" then c_array_agg_call P eos o ts
     else if str_eqb (lower main) "count" then c_count_call P eos ts
     else c_other_call P eos o main ts) ;;
  '(nt, ts) <- next_opt eos ts ;;
  if truthy nt && olow_is nt "filter" then
    '(t, ts) <- next_req eos ts ;;
    _ <- rassert (str_eqb t "(") ;;
    '(at_, ts) <- until_close eos None ts ;;
    match at_ with
    | [] => Err IndexError
    | w :: rest =>
      _ <- rassert (str_eqb (lower w) "where") ;;
      '(cond, _, _) <- c_expr P None (mk_eopts false false false [] None false) rest ;;
      '(nt, ts) <- next_opt eos ts ;;
      Ok (NFiltered e cond, nt, ts)
    end
  else Ok (e, nt, ts).

(** lexer.py:605-754: expressions that need the next token; [nt] is next_token *)
Definition c_expr_second (P : cparsers_t) (eos : option exn) (o : eopts) (main : str)
    (nt : option str) (ts : list str) : counted (node * option str * list str) :=
  if opt_eqb nt "(" then c_call P eos o main ts
  else if mem (lower main) PARTS && olow_is nt "from" then
    '(e, nt, ts) <- c_expr P eos (opts_until (o_until o)) ts ;; Ok (NDatePart main e, nt, ts)
  else if mem (lower main) TYPE_VALUES && o_can_be_type o then Ok (NType main, nt, ts)
  else if opt_eqb nt "[" then
    '(at_, _, ts) <- until_one_of eos ["]"] None [] ts ;;
    args <- c_exprlist P false at_ ;;
    '(nt, ts) <- next_opt eos ts ;;
    Ok (NIndex (NColumn main) args, nt, ts)
  else if str_eqb main "-" && match nt with Some n => isdigit n | None => false end then
    let n := match nt with Some n => n | None => [] end in
    '(nt, ts) <- next_opt eos ts ;;
    Ok (NInt (- Z.of_N (N_of_digits n)), nt, ts)
  else if str_eqb main "-" && match nt with Some n => isdigit (no_dots n) | None => false end then
    t <- float_text (match nt with Some n => n | None => [] end) ;;
    '(nt, ts) <- next_opt eos ts ;;
    Ok (NFloat (45%N :: t), nt, ts)
  else if mem (lower main) PREFIXES && olow_in nt QUOTES then
    (* next_token stays the opening quote, as in the code *)
    '(e, ts) <- string_parse eos ts (match nt with Some q => q | None => [] end) (Some main) ;;
    Ok (e, nt, ts)
  else Ok (NColumn main, nt, ts).

(** lexer.py:756-800 OVER (...) *)
Definition c_over_clause (P : cparsers_t) (eos : option exn) (e : node) (nt : option str)
    (ts : list str) : counted (node * option str * list str) :=
  if olow_is nt "over" then
    '(op, ts) <- next_opt eos ts ;;
    if negb (opt_eqb op "(") then Err (ParsingError "expected '('") else
    '(at_, ts) <- until_close eos None ts ;;
    '(ant, at_) <- next_opt None at_ ;;
    '(partition, ant, at_) <-
      (if olow_is ant "partition" then
         '(ant, at_) <- next_opt None at_ ;;
         if negb (truthy ant) || negb (olow_is ant "by")
         then Err (ParsingError "Missing BY after PARTITION") else
         '(et, ant, at_) <- until_one_of None ["order"; "rows"; "range"] None [] at_ ;;
         es <- c_exprlist P false et ;;
         Ok (Some es, ant, at_)
       else Ok (None, ant, at_)) ;;
    '(order, ant, at_) <-
      (if olow_is ant "order" then
         '(ant, at_) <- next_opt None at_ ;;
         if negb (truthy ant) || negb (olow_is ant "by")
         then Err (ParsingError "Missing BY after ORDER") else
         '(et, ant, at_) <- until_one_of None ["rows"; "range"] None [] at_ ;;
         items <- c_orderby P et ;;
         Ok (Some items, ant, at_)
       else Ok (None, ant, at_)) ;;
    frame <-
      (match ant with
       | Some rr =>
         if mem (lower rr) ["rows"; "range"] then
           '(et, _, _) <- until_one_of None [] None [] at_ ;; Ok (Some (rr, join " " et))
         else Ok None
       | None => Ok None
       end) ;;
    '(nt, ts) <- next_opt eos ts ;;
    Ok (NAnalytics e partition order frame, nt, ts)
  else Ok (e, nt, ts).

(** lexer.py:802-806 chained columns *)
Fixpoint c_dot_loop (P : cparsers_t) (k : nat) (eos : option exn) (until : list str) (e : node)
    (nt : option str) (ts : list str) : counted (node * option str * list str) :=
  if opt_eqb nt "." then
    match k with
    | O => Err OutOfFuel
    | S k =>
      '(r, nt, ts) <- c_expr P eos (mk_eopts false false true until None true) ts ;;
      c_dot_loop P k eos until (NChained e r) nt ts
    end
  else Ok (e, nt, ts).

(** lexer.py:818-824 indices *)
Fixpoint c_index_loop (P : cparsers_t) (k : nat) (eos : option exn) (e : node) (nt : option str)
    (ts : list str) : counted (node * option str * list str) :=
  if opt_eqb nt "[" then
    match k with
    | O => Err OutOfFuel
    | S k =>
      '(at_, _, ts) <- until_one_of eos ["]"] None [] ts ;;
      args <- c_exprlist P false at_ ;;
      '(nt, ts) <- next_opt eos ts ;;
      c_index_loop P k eos (NIndex e args) nt ts
    end
  else Ok (e, nt, ts).

(** lexer.py:802-824: postfix parts and arithmetic *)
Definition c_expr_postfix (P : cparsers_t) (eos : option exn) (o : eopts) (e : node)
    (nt : option str) (ts : list str) : counted (node * option str * list str) :=
  '(e, nt, ts) <- c_dot_loop P (S (length ts)) eos (o_until o) e nt ts ;;
  '(e, nt, ts) <-
    (match nt with
     | Some op =>
       if mem op ["+"; "-"; "*"; "/"] && negb (o_chained o) then
         '(r, nt, ts) <- c_expr P eos (opts_rh (o_until o)) ts ;; Ok (NArith op e r, nt, ts)
       else Ok (e, nt, ts)
     | None => Ok (e, nt, ts)
     end) ;;
  c_index_loop P (S (length ts)) eos e nt ts.

(** lexer.py:829-873 comparison, BETWEEN and bitwise operators *)
Definition c_expr_compare (P : cparsers_t) (eos : option exn) (o : eopts) (e : node)
    (nt : option str) (ts : list str) : counted (node * option str * list str) :=
  match nt with
  | Some sym =>
    if mem (lower sym) PREDICATES then
      '(first, symbol, ts) <-
        (if str_eqb (lower sym) "is" then
           '(t, ts) <- next_req eos ts ;;
           if str_eqb (lower t) "not" then Ok (None, "is not", ts) else Ok (Some t, sym, ts)
         else if str_eqb (lower sym) "not" then
           '(t, ts) <- next_req eos ts ;;
           if str_eqb (lower t) "in" then Ok (None, "not in", ts) else Ok (Some t, sym, ts)
         else Ok (None, sym, ts)) ;;
      '(r, nt, ts) <- c_expr P eos (mk_eopts true false true (o_until o) first false) ts ;;
      Ok (NCond e symbol r, nt, ts)
    else if str_eqb (lower sym) "between" then
      '(rl, nt, ts) <- c_expr P eos (opts_rh (o_until o)) ts ;;
      if negb (olow_is nt "and") then Err (ParsingError "expected AND") else
      '(rr, nt, ts) <- c_expr P eos (opts_rh (o_until o)) ts ;;
      Ok (NCond e sym (NBoolC "and" rl rr), nt, ts)
    else if mem sym BITWISE_OPERATORS then
      '(r, nt, ts) <- c_expr P eos (opts_rh (o_until o)) ts ;;
      Ok (NBitwise e sym r, nt, ts)
    else Ok (e, nt, ts)
  | None => Ok (e, nt, ts)
  end.

(** lexer.py:875-888 AND / OR; an alias of the right operand is moved outside *)
Definition c_expr_bool (P : cparsers_t) (eos : option exn) (o : eopts) (e : node)
    (nt : option str) (ts : list str) : counted (node * option str * list str) :=
  match nt with
  | Some sym =>
    if mem (lower sym) BOOL_PREDICATES then
      '(r, nt, ts) <- c_expr P eos (opts_until (o_until o)) ts ;;
      match r with
      | NAlias inner a w => Ok (NAlias (NBoolC sym e inner) a w, nt, ts)
      | _ => Ok (NBoolC sym e r, nt, ts)
      end
    else Ok (e, nt, ts)
  | None => Ok (e, nt, ts)
  end.

(** lexer.py:890-897 and 899-910: EXCEPT (...) and REPLACE (...) *)
Definition c_expr_except (P : cparsers_t) (eos : option exn) (e : node)
    (nt : option str) (ts : list str) : counted (node * option str * list str) :=
  if olow_is nt "except" then
    '(op, ts) <- next_opt eos ts ;;
    if negb (opt_eqb op "(") then Err (ParsingError "expected '('") else
    '(at_, ts) <- until_close eos None ts ;;
    args <- c_exprlist P false at_ ;;
    '(nt, ts) <- next_opt eos ts ;;
    Ok (NExcept e args, nt, ts)
  else Ok (e, nt, ts).
Definition c_expr_replace (P : cparsers_t) (eos : option exn) (e : node)
    (nt : option str) (ts : list str) : counted (node * option str * list str) :=
  if olow_is nt "replace" then
    '(op, ts) <- next_opt eos ts ;;
    if negb (opt_eqb op "(") then Err (ParsingError "expected '('") else
    '(at_, ts) <- until_close eos None ts ;;
    args <- c_exprlist P false at_ ;;
    _ <- rassert (forallb is_as_alias args) ;;
    '(nt, ts) <- next_opt eos ts ;;
    Ok (NReplace e args, nt, ts)
  else Ok (e, nt, ts).

(** lexer.py:912-931 alias *)
Definition c_expr_alias (P : cparsers_t) (eos : option exn) (o : eopts) (e : node)
    (nt : option str) (ts : list str) : counted (node * option str * list str) :=
  match nt with
  | Some t =>
    if negb (str_eqb t ")") && negb (mem t QUOTES && is_string_node e) && negb (str_eqb t ";")
       && negb (mem (lower t) (o_until o)) && o_can_alias o
    then
      if str_eqb (lower t) "as" then
        '(a, _, ts) <- c_expr P eos (opts_rh (o_until o)) ts ;;
        '(nt, ts) <- next_opt eos ts ;;
        Ok (NAlias e (inr a) true, nt, ts)
      else if mem t QUOTES then
        '(a, ts) <- string_parse eos ts t None ;;
        '(nt, ts) <- next_opt eos ts ;;
        Ok (NAlias e (inr a) false, nt, ts)
      else
        '(nt, ts) <- next_opt eos ts ;;
        Ok (NAlias e (inl t) false, nt, ts)
    else Ok (e, nt, ts)
  | None => Ok (e, nt, ts)
  end.

(** lexer.py:826-931: what follows unless the expression is a right operand or chained *)
Definition c_expr_tail (P : cparsers_t) (eos : option exn) (o : eopts) (e : node)
    (nt : option str) (ts : list str) : counted (node * option str * list str) :=
  if o_right_hand o || o_chained o then Ok (e, nt, ts)
  else
    '(e, nt, ts) <- c_expr_compare P eos o e nt ts ;;
    '(e, nt, ts) <- c_expr_bool P eos o e nt ts ;;
    '(e, nt, ts) <- c_expr_except P eos e nt ts ;;
    '(e, nt, ts) <- c_expr_replace P eos e nt ts ;;
    c_expr_alias P eos o e nt ts.

(** lexer.py:557-931 ExpressionParser.parse *)
Definition c_expr_head (P : cparsers_t) (eos : option exn) (o : eopts) (main : str) (ts : list str)
  : counted (node * option str * list str) :=
  '(eo, nt, ts) <- c_expr_first P eos o main ts ;;
  '(nt, ts) <- (if is_none nt then next_opt eos ts else Ok (nt, ts)) ;;
  match eo with
  | Some e => Ok (e, nt, ts)
  | None => c_expr_second P eos o main nt ts
  end.
Definition c_expr_body (P : cparsers_t) (eos : option exn) (o : eopts) (ts : list str) : counted (node * option str * list str) :=
  '(main, ts) <-
    (match o_first o with
     | Some (c :: f) => Ok (c :: f, ts)
     | _ => next_req eos ts
     end) ;;
  '(e, nt, ts) <- c_expr_head P eos o main ts ;;
  '(e, nt, ts) <- c_over_clause P eos e nt ts ;;
  '(e, nt, ts) <- c_expr_postfix P eos o e nt ts ;;
  c_expr_tail P eos o e nt ts.

(** ** Statements *)

(** lexer.py:73-179 SelectStatementParser.parse *)
Definition c_select_body (P : cparsers_t) (eos : option exn) (ts : list str) : counted node :=
  '(t, ts) <- next_req eos ts ;;
  '(sel_all, sel_distinct, don, first, ts) <-
    (if str_eqb (lower t) "all" then Ok (true, false, None, None, ts)
     else if str_eqb (lower t) "distinct" then
       '(t, ts) <- next_req eos ts ;;
       if str_eqb (lower t) "on" then
         '(_, ts) <- next_req eos ts ;;
         '(dt, ts) <- until_close eos None ts ;;
         es <- c_exprlist P false dt ;;
         Ok (false, true, Some es, None, ts)
       else Ok (false, true, None, Some t, ts)
     else Ok (false, false, None, Some t, ts)) ;;
  '(et, nt, ts) <- until_one_of eos SELECT_KEYWORDS first [] ts ;;
  exprs <- c_exprlist P false et ;;
  '(from_, nt, ts) <-
    (if olow_is nt "from" then
       '(et, nt, ts) <- until_one_of eos
          ["where"; "group"; "having"; "order"; "limit"; "offset"; ";"] None
          [("with", "offset")] ts ;;
       f <- c_from P et ;;
       Ok (Some f, nt, ts)
     else Ok (None, nt, ts)) ;;
  '(where_, nt, ts) <-
    (if olow_is nt "where" then
       '(e, nt, ts) <- c_expr P eos
          (mk_eopts false false false ["group"; "having"; "order"; "limit"; "offset"; ";"] None false)
          ts ;;
       Ok (Some e, nt, ts)
     else Ok (None, nt, ts)) ;;
  '(group, nt, ts) <-
    (if olow_is nt "group" then
       '(nt, ts) <- next_opt eos ts ;;
       '(each, nt, ts) <-
         (if olow_is nt "each" then '(nt, ts) <- next_opt eos ts ;; Ok (true, nt, ts)
          else Ok (false, nt, ts)) ;;
       if negb (olow_is nt "by") then Err (ParsingError "Missing BY after GROUP") else
       '(et, nt, ts) <- until_one_of eos ["having"; "order"; "limit"; "offset"; ";"] None [] ts ;;
       '(args, rollup) <- c_groupby P et ;;
       Ok (Some (args, rollup, each), nt, ts)
     else Ok (None, nt, ts)) ;;
  '(having, nt, ts) <-
    (if olow_is nt "having" then
       '(e, nt, ts) <- c_expr P eos
          (mk_eopts false false false ["order"; "limit"; "offset"; ";"] None false) ts ;;
       Ok (Some e, nt, ts)
     else Ok (None, nt, ts)) ;;
  '(order, nt, ts) <-
    (if olow_is nt "order" then
       '(nt, ts) <- next_opt eos ts ;;
       if negb (olow_is nt "by") then Err (ParsingError "Missing BY after ORDER") else
       '(et, nt, ts) <- until_one_of eos ["limit"; "offset"; ";"] None [] ts ;;
       items <- c_orderby P et ;;
       Ok (Some items, nt, ts)
     else Ok (None, nt, ts)) ;;
  '(limit, nt, ts) <-
    (if olow_is nt "limit" then
       '(et, nt, ts) <- until_one_of eos ["offset"; ";"] None [] ts ;;
       l <- c_limit_clause P et ;;
       Ok (Some l, nt, ts)
     else Ok (None, nt, ts)) ;;
  '(offset, nt, ts) <-
    (if olow_is nt "offset" then
       '(et, nt, ts) <- until_one_of eos [";"] None [] ts ;;
       '(e, _, _) <- c_expr P None opts0 et ;;
       Ok (Some e, nt, ts)
     else Ok (None, nt, ts)) ;;
  Ok (NSelect exprs sel_all sel_distinct don from_ where_ group having order limit offset
        (opt_eqb nt ";")).

(** lexer.py:383-403 WithStatementParser.parse.  One turn of the loop reads one named query and
    the token after it. *)
Fixpoint c_with_loop (P : cparsers_t) (k : nat) (eos : option exn) (ts : list str)
  : counted (list (str * node) * list str) :=
  match k with
  | O => Err OutOfFuel
  | S k =>
    '(name, ts) <- next_req eos ts ;;
    '(t, ts) <- next_req eos ts ;;
    _ <- rassert (str_eqb (lower t) "as") ;;
    '(t, ts) <- next_req eos ts ;;
    _ <- rassert (str_eqb (lower t) "(") ;;
    '(at_, ts) <- until_close eos None ts ;;
    q <- c_stmt P None at_ ;;
    '(sep, ts) <- next_req eos ts ;;
    if str_eqb (lower sep) "select" then Ok ([(name, q)], ts)
    else '(qs, ts) <- c_with_loop P k eos ts ;; Ok ((name, q) :: qs, ts)
  end.
Definition c_with_parse (P : cparsers_t) (eos : option exn) (ts : list str) : counted node :=
  '(qs, ts) <- c_with_loop P (S (length ts)) eos ts ;;
  s <- c_select P eos ts ;;
  Ok (NWith qs s).

(** lexer.py:62-70 SQLStatementParser.parse *)
Definition c_stmt_body (P : cparsers_t) (eos : option exn) (ts : list str) : counted node :=
  '(t, ts) <- next_req eos ts ;;
  if str_eqb (lower t) "select" then c_select P eos ts
  else if str_eqb (lower t) "with" then c_with_parse P eos ts
  else Err (ParsingError []).

(** lexer.py:323-380 UnnestParser.parse *)
Definition c_unnest_parse (P : cparsers_t) (ts : list str) : counted (node * option str * list str) :=
  '(t, ts) <- next_req None ts ;;
  _ <- rassert (str_eqb t "(") ;;
  '(at_, ts) <- until_close None None ts ;;
  args <- c_exprlist P false at_ ;;
  '(nt, ts) <- next_opt None ts ;;
  '(e, nt, ts) <-
    (match nt with
     | Some t =>
       if negb (mem (lower t) JOIN_VALUES) && negb (mem (lower t) SET_OPERATORS)
          && negb (str_eqb (lower t) "with")
       then from_alias (NFun "unnest" args) t ts
       else Ok (NFun "unnest" args, nt, ts)
     | None => Ok (NFun "unnest" args, nt, ts)
     end) ;;
  if olow_is nt "with" then
    '(t, ts) <- next_req None ts ;;
    _ <- rassert (str_eqb (lower t) "offset") ;;
    '(nt, ts) <- next_opt None ts ;;
    match nt with
    | Some t =>
      if negb (mem (lower t) JOIN_VALUES) && negb (mem (lower t) SET_OPERATORS) then
        '(was, a, ts) <-
          (if str_eqb (lower t) "as" then '(a, ts) <- next_req None ts ;; Ok (true, a, ts)
           else Ok (false, t, ts)) ;;
        '(nt, ts) <- next_opt None ts ;;
        Ok (NUnnest e true was (Some a), nt, ts)
      else Ok (NUnnest e true false None, nt, ts)
    | None => Ok (NUnnest e true false None, nt, ts)
    end
  else Ok (NUnnest e false false None, nt, ts).

(** lexer.py:194-203: the dotted continuation of a quoted table name *)
Fixpoint c_table_dot_loop (P : cparsers_t) (k : nat) (e : node) (nt : option str) (ts : list str)
  : counted (node * option str * list str) :=
  if opt_eqb nt "." then
    match k with
    | O => Err OutOfFuel
    | S k =>
      '(r, nt, ts) <- c_expr P None (mk_eopts false false true [] None true) ts ;;
      c_table_dot_loop P k (NChained e r) nt ts
    end
  else Ok (e, nt, ts).

(** lexer.py:185-221: the first FROM item *)
Definition c_from_item (P : cparsers_t) (ts : list str) : counted (node * option str * list str) :=
  '(t, ts) <- next_req None ts ;;
  if str_eqb t "(" then
    '(at_, ts) <- until_close None None ts ;;
    arg <- retry (length at_) (c_stmt P None at_) (c_from P at_) ;;
    '(nt, ts) <- next_opt None ts ;;
    Ok (NParen [arg], nt, ts)
  else if mem t QUOTES then
    '(name, ts) <- string_parse None ts t None ;;
    '(nt, ts) <- next_opt None ts ;;
    '(name, nt, ts) <- c_table_dot_loop P (S (length ts)) name nt ts ;;
    Ok (NTable name false, nt, ts)
  else if str_eqb t "[" then
    '(at_, nt, ts) <- until_one_of None ["]"] None [] ts ;;
    '(e, _, _) <- c_expr P None opts0 at_ ;;
    _ <- rassert (opt_eqb nt "]") ;;
    '(nt, ts) <- next_opt None ts ;;
    Ok (NTable e true, nt, ts)
  else if str_eqb (lower t) "unnest" then c_unnest_parse P ts
  else
    '(at_, nt, ts) <- until_one_of None (JOIN_VALUES ++ SET_OPERATORS) (Some t) [] ts ;;
    '(e, _, _) <- c_expr P None opts0 at_ ;;
    Ok (NTable e false, nt, ts).

(** lexer.py:239-269: UNION / INTERSECT / EXCEPT *)
Fixpoint c_set_loop (P : cparsers_t) (k : nat) (e : node) (nt : option str) (ts : list str)
  : counted (node * option str * list str) :=
  if olow_in nt SET_OPERATORS then
    match k with
    | O => Err OutOfFuel
    | S k =>
      '(et, nt, ts) <- until_not_in None SET_OPERATORS nt ts ;;
      let op := upper (join " " et) in
      '(et, nt, ts) <- until_one_of None SET_OPERATORS nt [] ts ;;
      right <-
        (match et with
         | [] => Err IndexError
         | t :: r => if str_eqb (lower t) "select" then c_select P None r else c_from P et
         end) ;;
      let e := NCombined op e right in
      '(e, nt, ts) <-
        (match nt with
         | Some t =>
           if negb (mem (lower t) SET_OPERATORS) then from_alias e t ts else Ok (e, nt, ts)
         | None => Ok (e, nt, ts)
         end) ;;
      c_set_loop P k e nt ts
    end
  else Ok (e, nt, ts).

(** lexer.py:271-311: joins.  For CROSS JOIN and comma the rest of the tokens, [next_token]
    included, is parsed as one FROM; when [next_token] is [None] the Python list is [[None]],
    on which the parser raises StopIteration exactly as on the empty list. *)
Fixpoint c_join_loop (P : cparsers_t) (k : nat) (e : node) (nt : option str) (ts : list str)
  : counted (node * option str * list str) :=
  if olow_in nt JOIN_VALUES then
    match k with
    | O => Err OutOfFuel
    | S k =>
      '(et, nt, ts) <- until_not_in None JOIN_VALUES nt ts ;;
      let ty := upper (join " " et) in
      '(et, nt, ts) <-
        (if mem ty ["CROSS JOIN"; ","] then
           Ok (match nt with Some t => t :: ts | None => ts end, None, [])
         else until_one_of None ["on"; "using"] nt [] ts) ;;
      right <- c_from P et ;;
      let on_or_using := nt in
      '(et, nt, ts) <- until_one_of None JOIN_VALUES None [] ts ;;
      '(on_, using_) <-
        (if olow_is on_or_using "on" then
           '(c, _, _) <- c_expr P None opts0 et ;; Ok (Some c, None)
         else if olow_is on_or_using "using" then
           '(c, _, _) <- c_expr P None opts0 et ;; Ok (None, Some c)
         else Ok (None, None)) ;;
      let e := NJoin ty e right on_ using_ in
      '(e, nt, ts) <-
        (match nt with
         | Some t =>
           if negb (mem (lower t) JOIN_VALUES) then from_alias e t ts else Ok (e, nt, ts)
         | None => Ok (e, nt, ts)
         end) ;;
      c_join_loop P k e nt ts
    end
  else Ok (e, nt, ts).

(** lexer.py:182-313 FromStatementParser.parse *)
Definition c_from_body (P : cparsers_t) (ts : list str) : counted node :=
  '(e, nt, ts) <- c_from_item P ts ;;
  '(e, nt, ts) <-
    (match nt with
     | Some t =>
       if negb (mem (lower t) JOIN_VALUES) && negb (mem (lower t) SET_OPERATORS)
       then from_alias e t ts else Ok (e, nt, ts)
     | None => Ok (e, nt, ts)
     end) ;;
  '(e, nt, ts) <- c_set_loop P (S (length ts)) e nt ts ;;
  '(e, nt, ts) <- c_join_loop P (S (length ts)) e nt ts ;;
  Ok e.

Fixpoint cparsers (n : nat) : cparsers_t :=
  match n with
  | O => mk_cparsers (fun _ _ _ => free (Err OutOfFuel)) (fun _ _ => free (Err OutOfFuel))
           (fun _ => free (Err OutOfFuel)) (fun _ _ => free (Err OutOfFuel))
  | S n =>
    let P := cparsers n in
    mk_cparsers (fun eos o ts => tick (c_expr_body P eos o ts)) (fun eos ts => tick (c_select_body P eos ts))
      (fun ts => tick (c_from_body P ts)) (fun eos ts => tick (c_stmt_body P eos ts))
  end.
Definition cparse_stmt (eos : option exn) (ts : list str) : counted node :=
  c_stmt (cparsers (parse_fuel ts)) eos ts.
(** the calls made, and the tokens parsed again, for a list of tokens *)
Definition parser_calls (eos : option exn) (ts : list str) : nat := fst (snd (cparse_stmt eos ts)).
Definition reparsed (eos : option exn) (ts : list str) : nat := snd (snd (cparse_stmt eos ts)).
