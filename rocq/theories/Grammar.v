(** The grammar fragment of the round-trip properties.

    [toks n] lists the tokens of the tree [n]; a keyword that the tree does not store may be
    spelled in any case.  [wf c n] says that [n] belongs to the fragment, as an expression, a
    FROM item or a statement.  Nothing here is taken from the parser or the printer. *)
From Verif Require Import PyStr PyFloat Ast.
Local Open Scope str_scope.
Local Open Scope list_scope.

(** ** Tokens *)
Inductive tok := Kw (s : str) | Id (s : str) | Num (z : Z).
(** The value of a sequence of decimal digits *)
Definition value (s : str) : Z := fold_left (fun a c => (10 * a + (Z.of_N c - 48))%Z) s 0%Z.
(** A number may be written with leading zeros. *)
Definition spells (t : tok) (s : str) : Prop :=
  match t with Kw k => lower s = k | Id i => s = i | Num z => isdigit s = true /\ value s = z end.
Definition spelling (ts : list tok) (ss : list str) : Prop := Forall2 spells ts ss.
Fixpoint commas (l : list (list tok)) : list tok :=
  match l with [] => [] | [x] => x | x :: r => x ++ Id "," :: commas r end.
Definition parens (l : list tok) : list tok := Id "(" :: l ++ [Id ")"].
Definition brackets (l : list tok) : list tok := Id "[" :: l ++ [Id "]"].
Definition kws (s : str) : list tok := map Kw (split 32 (lower s)).
Definition opt_toks {A} (o : option A) (f : A -> list tok) : list tok :=
  match o with Some x => f x | None => [] end.

(** (The fragment has positive limits in ARRAY_AGG only.) *)
Fixpoint toks (n : node) : list tok :=
  match n with
  | NSelect exprs sel_all sel_distinct don from_ where_ group having order limit offset semi =>
    Kw "select"
    :: (if sel_all then [Kw "all"]
        else if sel_distinct then
          Kw "distinct" :: match don with Some l => Kw "on" :: parens (commas (map toks l)) | None => [] end
        else [])
    ++ commas (map toks exprs)
    ++ match from_ with Some f => Kw "from" :: toks f | None => [] end
    ++ match where_ with Some e => Kw "where" :: toks e | None => [] end
    ++ match group with
       | Some (args, rollup, each) =>
         Kw "group" :: (if each then [Kw "each"] else []) ++ Kw "by" :: (if rollup then [Kw "rollup"] else [])
         ++ commas (map toks args)
       | None => [] end
    ++ match having with Some e => Kw "having" :: toks e | None => [] end
    ++ match order with Some l => Kw "order" :: Kw "by" :: commas (map toks l) | None => [] end
    ++ match limit with
       | Some (true, _) => [Kw "limit"; Kw "all"]
       | Some (false, Some e) => Kw "limit" :: toks e
       | Some (false, None) => [Kw "limit"]
       | None => [] end
    ++ match offset with Some e => Kw "offset" :: toks e | None => [] end
    ++ (if semi then [Id ";"] else [])
  | NWith qs s =>
    Kw "with" :: commas (map (fun q => Id (fst q) :: Kw "as" :: parens (toks (snd q))) qs) ++ toks s
  | NOrderItem e asc desc => toks e ++ (if asc then [Kw "asc"] else if desc then [Kw "desc"] else [])
  | NFun name args => Id name :: parens (commas (map toks args))
  | NCast c ty => Kw "cast" :: parens (toks c ++ [Kw "as"; Id ty])
  | NCount args d => Kw "count" :: parens ((if d then [Kw "distinct"] else []) ++ commas (map toks args))
  | NArrayAgg c d ign _ order limit =>
    Kw "array_agg" :: parens (
      (if d then [Kw "distinct"] else []) ++ toks c ++ (if ign then [Kw "ignore"; Kw "nulls"] else [])
      ++ match order with Some l => Kw "order" :: Kw "by" :: commas (map toks l) | None => [] end
      ++ match limit with Some z => [Kw "limit"; Num (Z.abs z)] | None => [] end)
  | NFiltered f c => toks f ++ Kw "filter" :: parens (Kw "where" :: toks c)
  | NAnalytics f p o fr =>
    toks f ++ Kw "over" :: parens (
      match p with Some l => Kw "partition" :: Kw "by" :: commas (map toks l) | None => [] end
      ++ match o with Some l => Kw "order" :: Kw "by" :: commas (map toks l) | None => [] end
      ++ match fr with Some (rr, f) => Id rr :: map Id (split 32 f) | None => [] end)
  | NColumn v => [Id v]
  | NChained l r => toks l ++ Id "." :: toks r
  | NType v => [Id v]
  | NDatePart p e => Id p :: Kw "from" :: toks e
  | NString v q _ => Id q :: match v with [] => [] | _ => [Id v] end ++ [Id q]
  | NInt z => if (z <? 0)%Z then [Id "-"; Num (- z)] else [Num z]
  | NFloat t => match t with 45%N :: t => [Id "-"; Id t] | _ => [Id t] end
  | NNull => [Kw "null"]
  | NBool b => [Kw (if b then "true" else "false")]
  | NParen args => parens (commas (map toks args))
  | NArray args => brackets (commas (map toks args))
  | NAlias e a w =>
    toks e ++ (if w then [Kw "as"] else []) ++ match a with inl t => [Id t] | inr x => toks x end
  | NIndex e l => toks e ++ brackets (commas (map toks l))
  | NArith op l r => toks l ++ Id op :: toks r
  | NBitwise e op r => toks e ++ Id op :: toks r
  | NTable v b => if b then brackets (toks v) else toks v
  | NUnnest e wo was al =>
    match e with
    | NFun _ args => Kw "unnest" :: parens (commas (map toks args))
    | NAlias (NFun _ args) a w =>
      Kw "unnest" :: parens (commas (map toks args))
      ++ (if w then [Kw "as"] else []) ++ match a with inl t => [Id t] | inr x => toks x end
    | _ => toks e
    end
    ++ (if wo then Kw "with" :: Kw "offset"
          :: match al with Some a => (if was then [Kw "as"] else []) ++ [Id a] | None => [] end
        else [])
  | NJoin ty l r on_ using_ =>
    toks l ++ (if str_eqb ty "," then [Id ","] else kws ty) ++ toks r
    ++ match on_ with Some c => Kw "on" :: toks c | None => [] end
    ++ match using_ with Some c => Kw "using" :: toks c | None => [] end
  | NCombined op l r => toks l ++ kws op ++ toks r
  | NCond e p r =>
    if str_eqb (lower p) "between" then
      toks e ++ Id p :: match r with NBoolC _ a b => toks a ++ Kw "and" :: toks b | _ => toks r end
    else toks e ++ (if mem p ["is not"; "not in"] then kws p else [Id p]) ++ toks r
  | NBoolC ty l r => toks l ++ Id ty :: toks r
  | NNeg e => Kw "not" :: toks e
  | NExcept e args => toks e ++ Kw "except" :: parens (commas (map toks args))
  | NReplace e args => toks e ++ Kw "replace" :: parens (commas (map toks args))
  | NCase e ws els =>
    Kw "case" :: match e with Some x => toks x | None => [] end
    ++ flat_map (fun wt => Kw "when" :: toks (fst wt) ++ Kw "then" :: toks (snd wt)) ws
    ++ match els with Some x => Kw "else" :: toks x | None => [] end
    ++ [Kw "end"]
  end.

(** ** Words *)
(** No quote, blank, separator, backslash, bar or exclamation mark *)
Definition word_char (c : N) : bool :=
  negb (existsb (N.eqb c) [39; 34; 96; 32; 10; 9; 44; 59; 40; 41; 91; 93; 43; 45; 42; 47; 61; 60; 62; 46; 92; 124; 33]%N).
Definition word (v : str) : bool := negb (str_eqb v []) && forallb word_char v.
Definition RESERVED : list str :=
  ["is"; "like"; "in"; "not"; "contains"; "and"; "or"; "between"; "&"; "^"; "#";
   "true"; "yes"; "false"; "no"; "null"; "case"; "when"; "then"; "else"; "end"; "r";
   "select"; "from"; "where"; "group"; "having"; "order"; "limit"; "offset"; "all"; "distinct"; "on"; "using"; "as"; "by";
   "over"; "filter"; "except"; "replace"; "join"; "inner"; "left"; "right"; "full"; "cross"; "outer"; "each";
   "union"; "intersect"; "asc"; "desc"; "rows"; "range"; "partition"; "ignore"; "respects"; "with"; "unnest"; "rollup";
   "timestamp_trunc"].
Definition ident (v : str) : bool := word v && negb (isdigit v) && negb (mem (lower v) RESERVED).
(** Words that end a run of tokens somewhere in the parser *)
Definition STOPS : list str :=
  ["from"; "where"; "group"; "having"; "order"; "limit"; "offset"; "on"; "using"; "as"; "asc"; "desc";
   "then"; "when"; "else"; "ignore"; "respects"; "rows"; "range";
   "join"; "inner"; "left"; "right"; "full"; "cross"; "outer"; "each"; "union"; "intersect"; "except"; "all"; ","; ";"].
(** Contents of string literals: one line, no quote, no escaped special character, and not one of
    the words or signs above by themselves *)
Fixpoint tameb (s : str) : bool :=
  match s with
  | [] => true
  | c :: r =>
    (if N.eqb c 92 then match r with
       | d :: _ => negb (existsb (N.eqb d) [39; 34; 96; 32; 10; 9; 44; 59; 40; 41; 91; 93; 43; 45; 42; 47; 61; 60; 62; 46]%N)
       | [] => false end
     else true) && tameb r
  end.
Definition content (v : str) : bool :=
  forallb (fun c => negb (existsb (N.eqb c) [39; 34; 96; 10]%N)) v && tameb v
  && negb (mem (lower v) (STOPS ++ ["("; ")"; "["; "]"; "case"; "end"; "with"; "timestamp_trunc"])).
Definition float_ok (t : str) : bool :=
  has 46 t && forallb (fun c => is_digit_c c || N.eqb c 46) t && isdigit (replace_c 46 [] t)
  && match float_text t with Ok t' => str_eqb t t' | Err _ => false end.

(** ** Levels of expressions: what may stand where without parentheses *)
Definition lvl (n : node) : nat :=
  match n with
  | NColumn _ | NString _ _ _ | NInt _ | NFloat _ | NNull | NBool _ | NParen _ | NArray _ | NCase _ _ _
  | NFun _ _ | NCast _ _ | NCount _ _ | NArrayAgg _ _ _ _ _ _ | NFiltered _ _ | NAnalytics _ _ _ _ => 0
  | NIndex (NColumn _) _ => 0
  | NChained _ _ => 1
  | NIndex _ _ | NArith _ _ _ | NNeg _ => 2
  | NCond _ _ _ | NBitwise _ _ _ => 3
  | NBoolC _ _ _ => 4
  | NExcept _ _ => 5
  | NReplace _ _ => 6
  | NAlias _ _ _ => 7
  | NDatePart _ _ => 8
  | _ => 9
  end.
Definition is_index (n : node) : bool := match n with NIndex _ _ => true | _ => false end.
Definition is_number (n : node) : bool := match n with NInt _ | NFloat _ => true | _ => false end.
Definition is_over (n : node) : bool := match n with NAnalytics _ _ _ _ => true | _ => false end.
Definition is_neg (n : node) : bool := match n with NNeg _ => true | _ => false end.
Definition is_call (n : node) : bool :=
  match n with NFun _ _ | NCast _ _ | NCount _ _ | NArrayAgg _ _ _ _ _ _ => true | _ => false end.
Definition is_sel (n : node) : bool := match n with NSelect _ _ _ _ _ _ _ _ _ _ _ _ => true | _ => false end.
Definition is_wth (n : node) : bool := match n with NWith _ _ => true | _ => false end.
Definition is_str (n : node) : bool := match n with NString _ _ _ => true | _ => false end.
(** only the SELECT list and the FROM *)
Definition bare_select (n : node) : bool :=
  match n with NSelect _ _ _ _ _ None None None None None None false => true | _ => false end.
Definition is_star (n : node) : bool := match n with NColumn [42%N] => true | _ => false end.
Definition is_column (n : node) : bool := match n with NColumn _ => true | _ => false end.
Fixpoint lead (n : node) : node :=
  match n with NIndex e _ => lead e | NChained l _ => lead l | NAnalytics f _ _ _ => lead f | _ => n end.
(** the last operand of a chain of AND and OR *)
Fixpoint last_op (n : node) : node := match n with NBoolC _ _ r => last_op r | _ => n end.
(** one argument, where the printer looks only at the first *)
Definition paren1 (n : node) : bool := match n with NParen [_] => true | NParen _ => false | _ => true end.
Definition clausable (n : node) : bool :=
  paren1 n || match n with NParen args => forallb is_column args | _ => false end.
Definition starts_with (l : list str) (ts : list tok) : bool :=
  match ts with Kw k :: _ => mem k l | Id i :: _ => mem (lower i) l | _ => false end.
Definition starts_ident (ts : list tok) : bool := match ts with Id i :: _ => ident i | _ => false end.
(** no comma outside brackets *)
Fixpoint one_column (n : node) : bool :=
  match n with
  | NSelect exprs _ _ _ f _ g _ o _ _ _ =>
    (length exprs <=? 1) && match f with Some f => one_column f | None => true end
    && match g with Some (a, _, _) => length a <=? 1 | None => true end
    && match o with Some l => length l <=? 1 | None => true end
  | NAlias e _ _ => one_column e
  | NJoin ty l r _ _ => negb (str_eqb ty ",") && one_column l && one_column r
  | NCombined _ l r => one_column l && one_column r
  | _ => true
  end.
(** no set operation outside brackets *)
Fixpoint no_set (n : node) : bool :=
  match n with
  | NSelect exprs all _ _ f _ _ _ _ _ _ _ =>
    negb all && forallb (fun e => lvl e <=? 4) exprs && match f with Some f => no_set f | None => true end
  | NAlias e _ _ => no_set e
  | NJoin _ l r _ _ => no_set l && no_set r
  | NCombined _ _ _ => false
  | _ => true
  end.

(** ** Membership *)
Inductive ctx := Ex | Fr | St.
Definition oall {A} (f : A -> bool) (o : option A) : bool := match o with Some x => f x | None => true end.
Definition nonnil {A} (l : list A) : bool := match l with [] => false | _ => true end.
Definition join_words (ty : str) : bool :=
  str_eqb ty (upper ty) && forallb (fun w => mem w ["join"; "inner"; "left"; "right"; "full"; "cross"; "outer"; "each"]) (split 32 (lower ty)).
Definition set_words (op : str) : bool :=
  str_eqb op (upper op) && forallb (fun w => mem w SET_OPERATORS) (split 32 (lower op)).
(** the shapes a FROM can have without parentheses: an item with its alias, a join that is closed
    by its condition, any join, anything *)
Definition flvl (n : node) : nat :=
  match n with
  | NParen _ | NTable _ _ | NUnnest _ _ _ _ => 0
  | NAlias _ _ _ => 1
  | NJoin _ _ _ on_ using_ => match on_, using_ with None, None => 3 | _, _ => 2 end
  | NCombined _ _ _ => 4
  | _ => 9
  end.

Fixpoint wf (c : ctx) (n : node) {struct n} : bool :=
  let arg (a : node) : bool :=
    if is_sel a then wf St a && one_column a else wf Ex a && (lvl a <=? 8) in
  let args (l : list node) : bool := forallb arg l in
  let items (l : list node) : bool :=
    nonnil l && forallb (fun i => match i with NOrderItem e a d => wf Ex e && (lvl e <=? 3) && negb (a && d) | _ => false end) l in
  let als (a : str + node) : bool := match a with inl t => ident t | inr x => is_str x && wf Ex x end in
  match c with
  | Ex =>
    match n with
    | NColumn v => ident v || str_eqb v "*"
    | NString v q p => match p with None => mem q QUOTES && content v | Some _ => false end
    | NInt _ | NNull | NBool _ => true
    | NFloat t => float_ok (match t with 45%N :: t => t | _ => t end)
    | NParen l | NArray l => args l
    | NFun name l => ident name && negb (mem (lower name) ["cast"; "array_agg"; "count"]) && args l
    | NCast e ty => wf Ex e && (lvl e <=? 2) && ident ty
    | NCount l _ => nonnil l && args l
    | NArrayAgg e _ _ resp order limit =>
      wf Ex e && (lvl e <=? 4) && negb resp && oall items order
      && oall (fun z => (0 <? z)%Z) limit
    | NFiltered f e => is_call f && wf Ex f && wf Ex e && (lvl e <=? 4)
    | NAnalytics f p o fr =>
      wf Ex f && (lvl f <=? 0) && negb (is_over f)
      && oall (fun l => nonnil l && forallb (fun e => wf Ex e && (lvl e <=? 4)) l) p && oall items o
      && oall (fun f => mem (lower (fst f)) ["rows"; "range"]
           && forallb (fun w => word w && negb (mem (lower w) ["case"; "end"; "with"; "timestamp_trunc"])) (split 32 (snd f))) fr
    | NChained l r =>
      wf Ex l && wf Ex r && (lvl l <=? 0) && negb (is_number l) && negb (is_star l)
      && ((lvl r <=? 1) || is_index r) && negb (is_number (lead r))
    | NIndex e l => wf Ex e && ((lvl e <=? 0) || is_index e) && args l
    | NArith op l r => mem op ["+"; "-"; "*"; "/"] && wf Ex l && (lvl l <=? 1) && wf Ex r && (lvl r <=? 2)
    | NNeg e => wf Ex e && (lvl e <=? 2)
    | NCond e p r =>
      wf Ex e && (lvl e <=? 2)
      && (if str_eqb (lower p) "between" then
            match r with
            | NBoolC ty a b => str_eqb ty "and" && wf Ex a && (lvl a <=? 2) && paren1 a
                               && wf Ex b && (lvl b <=? 2) && paren1 b
            | _ => false end
          else (mem p ["="; ">"; "<"; "<="; ">="; "!="; "<>"; "is not"; "not in"]
                || mem (lower p) ["is"; "like"; "in"; "contains"])
               && wf Ex r && (lvl r <=? 2) && negb (str_eqb (lower p) "is" && is_neg r))
    | NBitwise e op r => mem op BITWISE_OPERATORS && wf Ex e && (lvl e <=? 2) && wf Ex r && (lvl r <=? 2)
    | NBoolC ty l r =>
      mem (lower ty) BOOL_PREDICATES && wf Ex l && (lvl l <=? 3) && paren1 l && wf Ex r && (lvl r <=? 4) && paren1 r
    | NExcept e l => wf Ex e && (lvl e <=? 3) && nonnil l && args l
    | NReplace e l =>
      wf Ex e && ((lvl e <=? 3) || Nat.eqb (lvl e) 5) && nonnil l && args l
      && forallb (fun a => match a with NAlias _ _ true => true | _ => false end) l
    | NAlias e a w =>
      wf Ex e && (lvl e <=? 6)
      && match w, a with
         | true, inr x => (is_column x && negb (is_star x) || is_str x) && wf Ex x
         | false, inl t => ident t
         | false, inr x => is_str x && wf Ex x && negb (is_str (last_op e))
         | true, inl _ => false
         end
    | NDatePart p e => mem (lower p) PARTS && wf Ex e && (lvl e <=? 4)
    | NCase e ws els =>
      oall (fun x => wf Ex x && (lvl x <=? 4) && negb (starts_with ["case"] (toks x))) e
      && nonnil ws
      && forallb (fun wt => wf Ex (fst wt) && (lvl (fst wt) <=? 4) && clausable (fst wt)
                            && wf Ex (snd wt) && (lvl (snd wt) <=? 3)) ws
      && oall (fun x => wf Ex x && (lvl x <=? 4)) els
    | _ => false
    end
  | Fr =>
    match n with
    | NParen [f] => if is_sel f || is_wth f then wf St f else wf Fr f
    | NTable v true => wf Ex v && (lvl v <=? 4)
    | NTable v false =>
      wf Ex v
      && match v with
         | NString _ _ _ => true
         | NChained (NString _ _ _) _ => true
         | NAlias e _ _ => (lvl e <=? 4) && starts_ident (toks v)
         | _ => (lvl v <=? 4) && starts_ident (toks v)
         end
    | NUnnest e wo was al =>
      match e with
      | NFun name l => str_eqb name "unnest" && args l
      | NAlias (NFun name l) a _ => str_eqb name "unnest" && args l && als a
      | _ => false
      end && (wo || negb was) && match al with Some a => wo && ident a | None => negb was end
    | NAlias e a _ =>
      wf Fr e && als a
      && match e with
         | NParen _ | NTable _ true | NTable (NString _ _ _) false | NTable (NChained (NString _ _ _) _) false => true
         | _ => false
         end
    | NJoin ty l r on_ using_ =>
      wf Fr l && (flvl l <=? 2) && wf Fr r
      && (if mem ty ["CROSS JOIN"; ","] then
            match on_, using_ with None, None => true | _, _ => false end
          else join_words ty && (flvl r <=? 1)
            && match on_, using_ with
               | Some c, None | None, Some c => wf Ex c && (lvl c <=? 4) && clausable c
               | _, _ => false
               end)
    | NCombined op l r =>
      set_words op && wf Fr l && ((flvl l <=? 1) || Nat.eqb (flvl l) 4)
      && (if is_sel r then bare_select r && wf St r else wf Fr r && (flvl r <=? 3))
      && no_set r
    | _ => false
    end
  | St =>
    match n with
    | NSelect exprs sel_all sel_distinct don from_ where_ group having order limit offset semi =>
      negb (sel_all && sel_distinct)
      && match don with Some l => sel_distinct && nonnil l && forallb (fun e => wf Ex e && (lvl e <=? 3)) l | None => true end
      && nonnil exprs && forallb (fun e => wf Ex e && (lvl e <=? 7)) exprs
      && oall (wf Fr) from_
      && oall (fun e => wf Ex e && (lvl e <=? 4) && clausable e) where_
      && match group with
         | Some (l, _, _) => nonnil l && forallb (fun e => wf Ex e && (lvl e <=? 3)) l
         | None => true end
      && oall (fun e => wf Ex e && (lvl e <=? 4) && clausable e) having
      && oall items order
      && match limit with
         | Some (true, None) | None => true
         | Some (false, Some e) => wf Ex e && (lvl e <=? 3)
         | _ => false end
      && oall (fun e => wf Ex e && (lvl e <=? 3)) offset
      && negb semi
    | NWith qs s =>
      nonnil qs && forallb (fun q => ident (fst q) && is_sel (snd q) && wf St (snd q)) qs && is_sel s && wf St s
    | _ => false
    end
  end.

(** A statement of the fragment, possibly terminated by a semicolon *)
Definition with_semi (b : bool) (n : node) : node :=
  match n with
  | NSelect exprs a d don f w g h o l off _ => NSelect exprs a d don f w g h o l off b
  | NWith qs (NSelect exprs a d don f w g h o l off _) => NWith qs (NSelect exprs a d don f w g h o l off b)
  | _ => n
  end.
Definition statement (n : node) : bool := wf St (with_semi false n).
