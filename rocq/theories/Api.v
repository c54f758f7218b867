(** Model of sqlvalidator/sql_formatter.py and sqlvalidator/sql_validator.py: the public API. *)
From Verif Require Import PyStr Tokeniser Ast Parser Render Validate.
Local Open Scope str_scope.
Local Open Scope list_scope.

(** [SQLStatementParser.parse(to_tokens(sql))] *)
Definition parse_sql (sql : str) : R node :=
  let '(ts, eos) := to_tokens sql in parse_stmt eos ts.

(** sql_formatter.py:5-6 [format_sql] *)
Definition format_sql (sql : str) : R str := n <- parse_sql sql ;; transform n.

(** sql_validator.py:7-30 [SQLQuery]: the object's state *)
Record query := mk_query {
  q_sql : str; q_ast : option node; q_validated : bool; q_errors : list str }.
(** sql_validator.py:8-12, 36-38 [SQLQuery(sql)], [parse(sql)] *)
Definition new_query (sql : str) : query := mk_query sql None false [].

(** sql_validator.py:14-18, property [sql_query]: parse once, keep the tree *)
Definition get_ast (q : query) : R node * query :=
  match q_ast q with
  | Some n => (Ok n, q)
  | None =>
    match parse_sql (q_sql q) with
    | Ok n => (Ok n, mk_query (q_sql q) (Some n) (q_validated q) (q_errors q))
    | Err e => (Err e, q)
    end
  end.

(** sql_validator.py:20-21 [SQLQuery.format] *)
Definition q_format (q : query) : R str * query :=
  let '(r, q) := get_ast q in (n <- r ;; transform n, q).

(** [self.sql_query.validate()]: WithStatement inherits a [validate] that requires an argument *)
Definition validate_top (ord : fields -> fields) (n : node) : R (list str) :=
  match n with
  | NSelect _ _ _ _ _ _ _ _ _ _ _ _ => validate ord [] n
  | _ => Err TypeError
  end.

(** sql_validator.py:28-33 [SQLQuery._validate]: the flag is set first, and only ParsingError is
    caught *)
Definition q_validate (ord : fields -> fields) (q : query) : R unit * query :=
  let q := mk_query (q_sql q) (q_ast q) true (q_errors q) in
  let '(r, q) := get_ast q in
  match (n <- r ;; validate_top ord n) with
  | Ok es => (Ok tt, mk_query (q_sql q) (q_ast q) (q_validated q) es)
  | Err (ParsingError m) =>
    (Ok tt, mk_query (q_sql q) (q_ast q) (q_validated q) (q_errors q ++ [m]))
  | Err e => (Err e, q)
  end.

(** sql_validator.py:23-26 [SQLQuery.is_valid] *)
Definition q_is_valid (ord : fields -> fields) (q : query) : R bool * query :=
  let '(r, q) := if q_validated q then (Ok tt, q) else q_validate ord q in
  (_ <- r ;; Ok (match q_errors q with [] => true | _ => false end), q).
