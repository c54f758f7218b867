(** Vocabulary of C61: validating a project before and after formatting it. *)
From Verif Require Import PyStr Tokeniser Ast Parser Render Validate Api PyTokens FileHandler Grammar SpecVal SpecFile SpecRun SpecRound SpecStable SpecTokenize SpecSame.
Local Open Scope str_scope.
Local Open Scope list_scope.

(** If the token is an SQL string, it is a Python literal around a text that spells a statement of the
    fragment and has neither the quote of the literal nor a backslash; no column of it is called like a word
    that the printer puts in upper case; the new literal has the word that forbids validation if and only if
    the old one has it. *)
Definition steady_query (t : pytok) : Prop :=
  sql_string t = true -> exists p q body n ts,
    t_text t = p ++ q ++ body ++ q /\ legal_prefix p /\ legal_quote q /\ ~ In (quote_of q) body /\ ~ In 92%N body
    /\ to_tokens body = (ts, None) /\ statement n = true /\ Forall2 SpecRound.reads (entries n) ts /\ plainly n
    /\ contains "nosqlvalidation" (rewritten (t_text t)) = contains "nosqlvalidation" (t_text t).

(** The same line, but perhaps for the number of a source line *)
Definition same_but_line (a b : event) : Prop :=
  a = b \/ exists (m n : Z) x, a = EPrint ("L" ++ str_of_Z m ++ " - " ++ x) /\ b = EPrint ("L" ++ str_of_Z n ++ " - " ++ x).
