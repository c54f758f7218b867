(** Vocabulary of the properties about validating a query and its formatted text. *)
From Verif Require Import PyStr Ast AstLib Validate Api.
Local Open Scope str_scope.
Local Open Scope list_scope.

(** No column is called by one of the words that the printer puts in upper case (weekdays, names of
    Unicode forms, pseudo-columns): as such, or in any case *)
Definition steady (n : node) : Prop := forall v, occurs (NColumn v) n -> ~ In v COLUMN_KEYWORDS.
Definition plainly (n : node) : Prop := forall v, occurs (NColumn v) n -> ~ In (lower v) COLUMN_KEYWORDS.

(** What [parse(sql).is_valid()] returns or raises *)
Definition verdict (ord : fields -> fields) (sql : str) : R bool := fst (q_is_valid ord (new_query sql)).
