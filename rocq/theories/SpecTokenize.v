(** Vocabulary of the properties about files as Python's tokenizer reads them. *)
From Verif Require Import PyStr Tokeniser Ast Parser Render Validate Api PyTokens FileHandler Grammar SpecVal SpecFile SpecRun SpecRound
  SpecStable PyTokenize.
Local Open Scope str_scope.
Local Open Scope list_scope.

(** How often a text occurs in another one *)
Fixpoint occurrences (p s : str) : nat :=
  match s with [] => 0 | _ :: r => (if startswith p s then 1 else 0) + occurrences p r end.
(** How often a text occurs in the strings and the comments of a file *)
Definition inside (p : str) (ts : list pytok) : nat :=
  list_sum (map (fun t => match t_type t with TString | TComment => occurrences p (t_text t) | _ => 0 end) ts).
(** What does not belong between the tokens of an ordinary file: tabs, form feeds, a backslash that
    continues a line after a blank or at the start of a line *)
Definition UNTIDY : list str := [[9]; [12]; [32; 92; 10]; [10; 92; 10]]%N.

(** An ordinary Python file: the last line is complete, there are no carriage returns, tabs and form feeds
    stand only in strings and comments, a backslash that continues a line (not a string) stands directly
    behind a token, the first statement is not indented, and the tokenizer finds no error. *)
Definition ordinary (word : N -> bool) (s : str) : bool :=
  match rev s with [] => true | c :: _ => N.eqb c 10 end
  && negb (has 13 s)
  && match tokenize word s with
     | (t :: ts, None) => negb (existsb fst (t :: ts)) && negb (tktype_eqb (t_type (snd t)) TIndent)
       && forallb (fun p => occurrences p s =? inside p (map snd (t :: ts))) UNTIDY
     | _ => false
     end.

(** One literal and nothing else (SpecStable), not the empty one in two quotes *)
Definition one_literal (s : str) : bool := python_literal s && (2 <? length (snd (before_quote s))).

(** If the token is an SQL string, it is a Python literal around a text that spells a statement of the
    fragment and has neither the quote of the literal nor a backslash; rewriting it neither adds nor
    removes the word that forbids formatting. *)
Definition simple_query (t : pytok) : Prop :=
  sql_string t = true -> exists p q body n ts,
    t_text t = p ++ q ++ body ++ q /\ legal_prefix p /\ legal_quote q /\ ~ In (quote_of q) body /\ ~ In 92%N body
    /\ to_tokens body = (ts, None) /\ statement n = true /\ Forall2 reads (entries n) ts
    /\ contains "nosqlformat" (rewritten (t_text t)) = contains "nosqlformat" (t_text t).
