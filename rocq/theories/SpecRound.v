(** Vocabulary of the round-trip properties: the words of a query of the fragment, which of them
    may be written in any case, and what the formatted text writes for them. *)
From Verif Require Import PyStr PyFloat SpecTok Ast Grammar.
Local Open Scope str_scope.
Local Open Scope list_scope.

(** A keyword or function name (in lower case), a name, number, sign or piece of a literal, the
    name of a column, or a number *)
Inductive entry := Word (k : str) | Name (s : str) | Col (s : str) | Number (z : Z).
(** how an entry may be written in a query *)
Definition reads (i : entry) (s : str) : Prop :=
  match i with
  | Word k => lower s = k
  | Name v => s = v
  | Col v => s = v
  | Number z => isdigit s = true /\ value s = z
  end.
(** how the formatter writes it *)
Definition prints (i : entry) : str :=
  match i with
  | Word k => upper k
  | Name v => v
  | Col v => if mem v COLUMN_KEYWORDS then upper v else v
  | Number z => str_of_Z z
  end.

Fixpoint listed (l : list (list entry)) : list entry :=
  match l with [] => [] | [x] => x | x :: r => x ++ Name "," :: listed r end.
Definition round (l : list entry) : list entry := Name "(" :: l ++ [Name ")"].
Definition square (l : list entry) : list entry := Name "[" :: l ++ [Name "]"].
Definition words (s : str) : list entry := map Word (split 32 (lower s)).

(** The entries of a tree, in the order of the text *)
Fixpoint entries (n : node) : list entry :=
  match n with
  | NSelect exprs sel_all sel_distinct don from_ where_ group having order limit offset semi =>
    Word "select"
    :: (if sel_all then [Word "all"]
        else if sel_distinct then
          Word "distinct" :: match don with Some l => Word "on" :: round (listed (map entries l)) | None => [] end
        else [])
    ++ listed (map entries exprs)
    ++ match from_ with Some f => Word "from" :: entries f | None => [] end
    ++ match where_ with Some e => Word "where" :: entries e | None => [] end
    ++ match group with
       | Some (args, rollup, each) =>
         Word "group" :: (if each then [Word "each"] else []) ++ Word "by" :: (if rollup then [Word "rollup"] else [])
         ++ listed (map entries args)
       | None => [] end
    ++ match having with Some e => Word "having" :: entries e | None => [] end
    ++ match order with Some l => Word "order" :: Word "by" :: listed (map entries l) | None => [] end
    ++ match limit with
       | Some (true, _) => [Word "limit"; Word "all"]
       | Some (false, Some e) => Word "limit" :: entries e
       | Some (false, None) => [Word "limit"]
       | None => [] end
    ++ match offset with Some e => Word "offset" :: entries e | None => [] end
    ++ (if semi then [Name ";"] else [])
  | NWith qs s =>
    Word "with" :: listed (map (fun q => Name (fst q) :: Word "as" :: round (entries (snd q))) qs) ++ entries s
  | NOrderItem e asc desc => entries e ++ (if asc then [Word "asc"] else if desc then [Word "desc"] else [])
  | NFun name args => Word (lower name) :: round (listed (map entries args))
  | NCast c ty => Word "cast" :: round (entries c ++ [Word "as"; Word (lower ty)])
  | NCount args d => Word "count" :: round ((if d then [Word "distinct"] else []) ++ listed (map entries args))
  | NArrayAgg c d ign _ order limit =>
    Word "array_agg" :: round (
      (if d then [Word "distinct"] else []) ++ entries c ++ (if ign then [Word "ignore"; Word "nulls"] else [])
      ++ match order with Some l => Word "order" :: Word "by" :: listed (map entries l) | None => [] end
      ++ match limit with Some z => [Word "limit"; Number z] | None => [] end)
  | NFiltered f c => entries f ++ Word "filter" :: round (Word "where" :: entries c)
  | NAnalytics f p o fr =>
    entries f ++ Word "over" :: round (
      match p with Some l => Word "partition" :: Word "by" :: listed (map entries l) | None => [] end
      ++ match o with Some l => Word "order" :: Word "by" :: listed (map entries l) | None => [] end
      ++ match fr with Some (rr, f) => Word (lower rr) :: words f | None => [] end)
  | NColumn v => [Col v]
  | NChained l r => entries l ++ Name "." :: entries r
  | NType v => [Word (lower v)]
  | NDatePart p e => Word (lower p) :: Word "from" :: entries e
  | NString v q _ => Name q :: match v with [] => [] | _ => [Name v] end ++ [Name q]
  | NInt z => if (z <? 0)%Z then [Name "-"; Number (- z)] else [Number z]
  | NFloat t => match t with 45%N :: t => [Name "-"; Name t] | _ => [Name t] end
  | NNull => [Word "null"]
  | NBool b => [Word (if b then "true" else "false")]
  | NParen args => round (listed (map entries args))
  | NArray args => square (listed (map entries args))
  | NAlias e a w =>
    entries e ++ (if w then [Word "as"] else []) ++ match a with inl t => [Name t] | inr x => entries x end
  | NIndex e l => entries e ++ square (listed (map entries l))
  | NArith op l r => entries l ++ Name op :: entries r
  | NBitwise e op r => entries e ++ Name op :: entries r
  | NTable v b => if b then square (entries v) else entries v
  | NUnnest e wo was al =>
    entries e
    ++ (if wo then Word "with" :: Word "offset"
          :: match al with Some a => (if was then [Word "as"] else []) ++ [Name a] | None => [] end
        else [])
  | NJoin ty l r on_ using_ =>
    entries l ++ (if str_eqb ty "," then [Name ","] else words ty) ++ entries r
    ++ match on_ with Some c => Word "on" :: entries c | None => [] end
    ++ match using_ with Some c => Word "using" :: entries c | None => [] end
  | NCombined op l r => entries l ++ words op ++ entries r
  | NCond e p r => entries e ++ (if mem p ["is not"; "not in"] then words p else [Word (lower p)]) ++ entries r
  | NBoolC ty l r => entries l ++ Word (lower ty) :: entries r
  | NNeg e => Word "not" :: entries e
  | NExcept e args => entries e ++ Word "except" :: round (listed (map entries args))
  | NReplace e args => entries e ++ Word "replace" :: round (listed (map entries args))
  | NCase e ws els =>
    Word "case" :: match e with Some x => entries x | None => [] end
    ++ flat_map (fun wt => Word "when" :: entries (fst wt) ++ Word "then" :: entries (snd wt)) ws
    ++ match els with Some x => Word "else" :: entries x | None => [] end
    ++ [Word "end"]
  end.

(** The literals of a marked text: quote and content *)
Definition literals (m : marked) : list (N * str) := map fst (snd m).
(** Two tokens that differ in case, or two numerals of the same number *)
Definition alike (t t' : str) : Prop :=
  lower t' = lower t \/ isdigit t = true /\ isdigit t' = true /\ value t' = value t.
(** A numeral without leading zeros *)
Definition numeral (s : str) : Prop := isdigit s = true /\ (hd_error s = Some 48%N -> s = "0").
