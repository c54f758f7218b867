(** Vocabulary of C54: what a tree holds, in the order of the text, and what it means that all of
    it was taken from the tokens of the query. *)
From Verif Require Import PyStr PyFloat SpecTok Ast.
Local Open Scope str_scope.
Local Open Scope list_scope.

(** A piece of a tree: a text kept as it is, a word or several words of which the case does not
    matter, a number, a truth value, NULL, a quote mark. *)
Inductive piece :=
| Text (s : str) | Key (s : str) | Whole (z : Z) | Decimal (s : str) | Truth (b : bool) | Nothing | Quote (q : str).

(** [written p a]: the tokens [a] write the piece [p].  Of a quote mark it is only claimed that it
    is one of the three. *)
Inductive written : piece -> list str -> Prop :=
| w_text s : written (Text s) [s]
| w_key s a : lower (join " " a) = lower s -> written (Key s) a
| w_whole t : isdigit t = true -> written (Whole (Z.of_N (N_of_digits t))) [t]
| w_minus t : isdigit t = true -> written (Whole (- Z.of_N (N_of_digits t))) ["-"; t]
| w_int t z : py_int t = Ok z -> written (Whole z) [t]
| w_float t s : isdigit (replace_c 46 [] t) = true -> float_text t = Ok s -> written (Decimal s) [t]
| w_minus_float t s : isdigit (replace_c 46 [] t) = true -> float_text t = Ok s -> written (Decimal (45%N :: s)) ["-"; t]
| w_true t : mem (lower t) TRUE_VALUES = true -> written (Truth true) [t]
| w_false t : mem (lower t) FALSE_VALUES = true -> written (Truth false) [t]
| w_null t : lower t = "null" -> written Nothing [t]
| w_quote q : mem q QUOTES = true -> written (Quote q) [].

(** [taken l ts]: the pieces [l] are written by tokens of [ts], one after the other; every token
    is used at most once, and tokens may be left out *)
Inductive taken : list piece -> list str -> Prop :=
| taken_none ts : taken [] ts
| taken_skip t l ts : taken l ts -> taken l (t :: ts)
| taken_read p a l ts : written p a -> taken l ts -> taken (p :: l) (a ++ ts).

(** The pieces of a tree: every field of every node, left to right as SQL writes them.  Commas and
    brackets are not fields of the nodes. *)
Fixpoint pieces (n : node) : list piece :=
  match n with
  | NSelect exprs sel_all sel_distinct don from_ where_ group having order limit offset semi =>
    Key "select"
    :: (if sel_all then [Key "all"] else [])
    ++ (if sel_distinct then [Key "distinct"] else [])
    ++ match don with Some l => Key "on" :: flat_map pieces l | None => [] end
    ++ flat_map pieces exprs
    ++ match from_ with Some f => Key "from" :: pieces f | None => [] end
    ++ match where_ with Some e => Key "where" :: pieces e | None => [] end
    ++ match group with
       | Some (args, rollup, each) =>
         Key "group" :: (if each then [Key "each"] else []) ++ Key "by" :: (if rollup then [Key "rollup"] else [])
         ++ flat_map pieces args
       | None => [] end
    ++ match having with Some e => Key "having" :: pieces e | None => [] end
    ++ match order with Some l => Key "order" :: Key "by" :: flat_map pieces l | None => [] end
    ++ match limit with
       | Some (true, _) => [Key "limit"; Key "all"]
       | Some (false, Some e) => Key "limit" :: pieces e
       | Some (false, None) => [Key "limit"; Text "None"]
       | None => [] end
    ++ match offset with Some e => Key "offset" :: pieces e | None => [] end
    ++ (if semi then [Text ";"] else [])
  | NWith qs s => Key "with" :: flat_map (fun q => Text (fst q) :: Key "as" :: pieces (snd q)) qs ++ pieces s
  | NOrderItem e asc desc => pieces e ++ (if asc then [Key "asc"] else []) ++ (if desc then [Key "desc"] else [])
  | NFun name args => Key name :: flat_map pieces args
  | NCast col ty => Key "cast" :: pieces col ++ [Key "as"; Text ty]
  | NCount args distinct => Key "count" :: (if distinct then [Key "distinct"] else []) ++ flat_map pieces args
  | NArrayAgg col distinct ign resp order limit =>
    Key "array_agg" :: (if distinct then [Key "distinct"] else []) ++ pieces col
    ++ (if ign then [Key "ignore"; Key "nulls"] else []) ++ (if resp then [Key "respect"; Key "nulls"] else [])
    ++ match order with Some l => Key "order" :: Key "by" :: flat_map pieces l | None => [] end
    ++ match limit with Some z => [Key "limit"; Whole z] | None => [] end
  | NFiltered f cond => pieces f ++ Key "filter" :: Key "where" :: pieces cond
  | NAnalytics f partition order frame =>
    pieces f ++ Key "over"
    :: match partition with Some l => Key "partition" :: Key "by" :: flat_map pieces l | None => [] end
    ++ match order with Some l => Key "order" :: Key "by" :: flat_map pieces l | None => [] end
    ++ match frame with Some (rr, f) => [Text rr; Key f] | None => [] end
  | NColumn v => [Text v]
  | NChained l r => pieces l ++ Text "." :: pieces r
  | NType v => [Text v]
  | NDatePart part e => Text part :: Key "from" :: pieces e
  | NString v q prefix =>
    match prefix with Some p => [Text p] | None => [] end ++ Quote q :: match v with [] => [] | _ => [Text v] end ++ [Quote q]
  | NInt z => [Whole z]
  | NFloat t => [Decimal t]
  | NNull => [Nothing]
  | NBool b => [Truth b]
  | NParen args => flat_map pieces args
  | NArray args => flat_map pieces args
  | NAlias e alias with_as =>
    pieces e ++ (if with_as then [Key "as"] else []) ++ match alias with inl t => [Text t] | inr x => pieces x end
  | NIndex e l => pieces e ++ flat_map pieces l
  | NArith op l r => pieces l ++ Text op :: pieces r
  | NBitwise e op r => pieces e ++ Text op :: pieces r
  | NTable v _ => pieces v
  | NUnnest e wo was alias =>
    pieces e ++ (if wo then [Key "with"; Key "offset"] else []) ++ (if was then [Key "as"] else [])
    ++ match alias with Some a => [Text a] | None => [] end
  | NJoin ty l r on_ using_ =>
    pieces l ++ Key ty :: pieces r
    ++ match on_ with Some c => Key "on" :: pieces c | None => [] end
    ++ match using_ with Some c => Key "using" :: pieces c | None => [] end
  | NCombined op l r => pieces l ++ Key op :: pieces r
  | NCond e pred r => pieces e ++ Key pred :: pieces r
  | NBoolC ty l r => pieces l ++ Key ty :: pieces r
  | NNeg e => Key "not" :: pieces e
  | NExcept e args => pieces e ++ Key "except" :: flat_map pieces args
  | NReplace e args => pieces e ++ Key "replace" :: flat_map pieces args
  | NCase e whens els =>
    Key "case" :: match e with Some x => pieces x | None => [] end
    ++ flat_map (fun w => Key "when" :: pieces (fst w) ++ Key "then" :: pieces (snd w)) whens
    ++ match els with Some x => Key "else" :: pieces x | None => [] end
    ++ [Key "end"]
  end.

(** [shown p s]: the text the formatter writes for a piece *)
Inductive shown : piece -> str -> Prop :=
| s_text s : shown (Text s) s
| s_upper s : shown (Text s) (upper s)
| s_key s : shown (Key s) (upper s)
| s_whole z : shown (Whole z) (str_of_Z z)
| s_float s : shown (Decimal s) s
| s_truth b : shown (Truth b) (if b then "TRUE" else "FALSE")
| s_null : shown Nothing "NULL"
| s_quote q : shown (Quote q) q.
(** a text without its blanks and line ends *)
Definition bare (s : str) : str := filter (fun c => negb (N.eqb c 32 || N.eqb c 10)) s.
(** commas and brackets *)
Definition SIGNS : str := ",()[]".
(** [spelled l s]: [s] is the pieces [l] one after the other, with commas and brackets anywhere *)
Inductive spelled : list piece -> str -> Prop :=
| sp_end : spelled [] []
| sp_sign c l s : In c SIGNS -> spelled l s -> spelled l (c :: s)
| sp_piece p a l s : shown p a -> spelled l s -> spelled (p :: l) (bare a ++ s).
(** what [repr] writes for a SELECT; it stands where the formatter applies [str] to one *)
Definition REPR : str := "<SelectStatement:".
(** how often a list of pieces has the text [s] *)
Definition times (s : str) (l : list piece) : nat :=
  length (filter (fun p => match p with Text x => str_eqb x s | _ => false end) l).
