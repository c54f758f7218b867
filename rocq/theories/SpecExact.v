(** Vocabulary of C65: what --validate says of files whose queries are on tables. *)
From Verif Require Import PyStr Tokeniser Ast Parser Render Validate Api PyTokens FileHandler Grammar SpecVal SpecScope SpecReport SpecNested SpecAnswer SpecStuck SpecTables SpecNamed SpecFile SpecFailed.
Local Open Scope str_scope.
Local Open Scope list_scope.

(** SQL strings hold a SELECT of the fragment on tables, with or without aliases (C66). *)
Definition table_query (t : pytok) : Prop :=
  sql_string t = true -> exists n, holds t n /\ is_sel n = true /\ statement n = true /\ on_named_tables n.
(** Validation of the query raises; something is wrong in the query. *)
Definition halting_query (t : pytok) : Prop := exists n x, holds t n /\ looked x n /\ halts x.
Definition faulty_query (t : pytok) : Prop := exists n x S, holds t n /\ seen x S [] n /\ (faulty x \/ unknown x S).

(** One of the queries that are to be validated cannot be validated. *)
Definition halting_file (val : bool) (ts : list pytok) : Prop :=
  exists a t r, ts = a ++ t :: r /\ checked val t r = true /\ halting_query t.
(** [faults val ts k]: [k] of the queries that are to be validated are faulty. *)
Inductive faults (val : bool) : list pytok -> nat -> Prop :=
| fs_end : faults val [] 0
| fs_bad : forall t r k, checked val t r = true -> faulty_query t -> faults val r k -> faults val (t :: r) (S k)
| fs_good : forall t r k, ~ (checked val t r = true /\ faulty_query t) -> faults val r k -> faults val (t :: r) k.
