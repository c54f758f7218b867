(** The node classes of sqlvalidator/grammar/sql.py as one inductive type, and their constants.

    WhereClause / HavingClause / OnClause / UsingClause / OffsetClause objects only ever wrap one
    expression and are represented by that expression in the field that holds them;
    OrderByClause is the list of its items, GroupByClause a triple, LimitClause a pair. *)
From Verif Require Import PyStr.
Local Open Scope str_scope.

Inductive node : Type :=
(* sql.py:24-51 SelectStatement *)
| NSelect (exprs : list node) (sel_all sel_distinct : bool) (distinct_on : option (list node))
          (from_ where_ : option node)
          (group : option (list node * bool * bool))         (* args, rollup, group_each_by *)
          (having : option node) (order : option (list node))  (* NOrderItem s *)
          (limit : option (bool * option node))               (* limit_all, expression *)
          (offset : option node) (semi : bool)
(* sql.py:491-528 WithStatement of WithQuery(name, statement) *)
| NWith (queries : list (str * node)) (sel : node)
(* sql.py:404-416 OrderByItem *)
| NOrderItem (e : node) (asc desc : bool)
(* sql.py:531-640 FunctionCall, CastFunctionCall, CountFunctionCall, ArrayAggFunctionCall *)
| NFun (name : str) (args : list node)
| NCast (col : node) (ty : str)
| NCount (args : list node) (distinct : bool)
| NArrayAgg (col : node) (distinct ignore_nulls respect_nulls : bool)
            (order : option (list node)) (limit : option Z)
(* sql.py:643-664 FilteredFunctionCall; 667-735 AnalyticsClause; 738-761 WindowFrameClause *)
| NFiltered (f cond : node)
| NAnalytics (f : node) (partition order : option (list node)) (frame : option (str * str))
(* sql.py:764-800 Column; 803-834 ChainedColumns (always built with two parts) *)
| NColumn (v : str)
| NChained (l r : node)
(* sql.py:837-841 Type; 844-877 DatePartExtraction; 880-901 String *)
| NType (v : str)
| NDatePart (part : str) (e : node)
| NString (v quotes : str) (prefix : option str)
(* sql.py:904-967 Integer, Float (its str() text), Null, Boolean *)
| NInt (z : Z)
| NFloat (text : str)
| NNull
| NBool (b : bool)
(* sql.py:970-1033 Parenthesis, Array *)
| NParen (args : list node)
| NArray (args : list node)
(* sql.py:1036-1076 Alias: the alias is a raw token or an expression *)
| NAlias (e : node) (alias : str + node) (with_as : bool)
(* sql.py:1079-1092 Index; 1095-1121 ArithmaticOperator (always two args); 1129-1145 Bitwise *)
| NIndex (e : node) (indices : list node)
| NArith (op : str) (l r : node)
| NBitwise (e : node) (op : str) (r : node)
(* sql.py:1148-1161 Table; 1164-1189 Unnest; 1192-1336 Join; 1339-1375 CombinedQueries *)
| NTable (v : node) (brackets : bool)
| NUnnest (e : node) (with_offset with_offset_as : bool) (alias : option str)
| NJoin (ty : str) (l r : node) (on_ using_ : option node)
| NCombined (op : str) (l r : node)
(* sql.py:1398-1448 Condition; 1451-1512 BooleanCondition (always two args); 1515-1529 Negation *)
| NCond (e : node) (pred : str) (r : node)
| NBoolC (ty : str) (l r : node)
| NNeg (e : node)
(* sql.py:1532-1564 ExceptClause, ReplaceClause; 1567-1600 Case *)
| NExcept (e : node) (args : list node)
| NReplace (e : node) (args : list node)
| NCase (e : option node) (whens : list (node * node)) (els : option node).

(** Class constants *)
Definition QUOTES : list str := ["'"; """"; "`"].                        (* sql.py:881 *)
Definition PREFIXES : list str := ["r"].                                 (* sql.py:882 *)
Definition NULL_VALUES : list str := ["null"].                           (* sql.py:929 *)
Definition TRUE_VALUES : list str := ["true"; "yes"].                    (* sql.py:943-946 *)
Definition FALSE_VALUES : list str := ["false"; "no"].                   (* sql.py:947-950 *)
Definition BOOLEAN_VALUES : list str := TRUE_VALUES ++ FALSE_VALUES.     (* sql.py:951 *)
Definition TYPE_VALUES : list str :=                                     (* sql.py:838 *)
  ["int"; "float"; "day"; "month"; "timestamp"; "int64"; "string"; "date"].
Definition PARTS : list str :=                                           (* sql.py:845-870 *)
  ["microsecond"; "second"; "minute"; "hour"; "day"; "week"; "month"; "quarter"; "year";
   "second_microsecond"; "minute_microsecond"; "minute_second"; "hour_microsecond";
   "hour_second"; "hour_minute"; "day_microsecond"; "day_second"; "day_minute"; "day_hour";
   "year_month"; "dayofmonth"; "dayofweek"; "dayofyear"; "date"].
Definition COLUMN_KEYWORDS : list str :=                                 (* sql.py:765-779 *)
  ["_table_suffix"; "_partitiondate"; "nfc"; "nfkc"; "nfd"; "nfkd"; "monday"; "tuesday";
   "wednesday"; "thursday"; "friday"; "saturday"; "sunday"].
Definition BITWISE_OPERATORS : list str := ["&"; "|"; "^"; "||"; "<<"; ">>"; "#"]. (* sql.py:1130 *)
Definition JOIN_VALUES : list str :=                                     (* sql.py:1193 *)
  ["join"; "inner"; "left"; "right"; "full"; "cross"; "outer"; ","; "each"].
Definition SET_OPERATORS : list str := ["union"; "intersect"; "except"; "all"].  (* sql.py:1340 *)
Definition PREDICATES : list str :=                                      (* sql.py:1399-1412 *)
  ["="; ">"; "<"; "<="; ">="; "!="; "is"; "like"; "<>"; "in"; "not"; "contains"].
Definition BOOL_PREDICATES : list str := ["and"; "or"].                  (* sql.py:1452 *)
