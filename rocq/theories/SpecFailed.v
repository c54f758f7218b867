(** Vocabulary of C63: the files that a run cannot analyse. *)
From Verif Require Import PyStr Tokeniser Ast Parser Render Validate Api PyTokens FileHandler Grammar SpecVal SpecReport SpecNested SpecAnswer SpecStuck SpecFile.
Local Open Scope str_scope.
Local Open Scope list_scope.

(** [holds t n]: the token is a Python literal around a text that is parsed to [n]. *)
Definition holds (t : pytok) (n : node) : Prop := exists p q body,
  t_text t = p ++ q ++ body ++ q /\ legal_prefix p /\ legal_quote q /\ fits q body /\ parse_sql body = Ok n.
(** SQL strings hold a SELECT of the fragment with settled names. *)
Definition clear_query (t : pytok) : Prop :=
  sql_string t = true -> exists n, holds t n /\ is_sel n = true /\ statement n = true /\ settled_names n.
(** Validation of the query raises. *)
Definition broken_query (t : pytok) : Prop := exists n x, holds t n /\ looked x n /\ stuck x.
