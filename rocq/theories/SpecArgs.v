(** Vocabulary of C55: what a command line means. *)
From Verif Require Import PyStr FileHandler.
Local Open Scope str_scope.
Local Open Scope list_scope.

(** The long options; -h is the only short one *)
Definition LONG : list str := ["--help"; "--version"; "--check-format"; "--format"; "--validate"; "--verbose-validate"].
(** [means a name]: [a] is the option or an abbreviation of it and of no other *)
Definition means (a name : str) : Prop :=
  In name LONG /\ 3 <= length a /\ (exists r, name = a ++ r) /\ forall other r, In other LONG -> other = a ++ r -> other = name.
(** one of the four options that say what to do *)
Definition task_word (a : str) : Prop :=
  exists name, In name ["--check-format"; "--format"; "--validate"; "--verbose-validate"] /\ means a name.
(** an option or an abbreviation of one or several, possibly with = and a value *)
Definition like_option (a : str) : Prop :=
  exists name p r, In name LONG /\ name = p ++ r /\ 2 <= length p /\ (a = p \/ exists e, a = p ++ 61%N :: e).
(** digits, possibly with a dot among them or before them *)
Definition numeral (b : str) : Prop := isdigit b = true \/ exists d e, b = d ++ 46%N :: e /\ (d = [] \/ isdigit d = true) /\ isdigit e = true.
(** [file_word a]: [a] can be given as a file without -- before it: it does not begin with a dash, or is a dash, or
    is a negative number (a line end may follow) or has a blank in it and is not like an option *)
Definition file_word (a : str) : Prop :=
  (forall r, a <> 45%N :: r) \/ a = "-"
  \/ ((exists b, numeral b /\ (a = 45%N :: b \/ a = 45%N :: b ++ [10%N])) \/ In 32%N a)
     /\ ~ like_option a /\ (forall r, a <> "-h" ++ r).
(** the files of a command line and, behind --, anything *)
Definition file_words (f srcs rest : list str) : Prop :=
  Forall file_word f /\ srcs = f
  \/ exists p q, f = p ++ "--" :: q /\ Forall file_word p /\ srcs = p ++ q /\ rest = [].
(** [command argv srcs o]: the files in one block, options before and after it *)
Definition command (argv srcs : list str) (o : options) : Prop :=
  exists o1 f o2, argv = o1 ++ f ++ o2 /\ Forall task_word (o1 ++ o2) /\ file_words f srcs o2 /\ srcs <> []
  /\ (f_format o = true <-> exists a, In a (o1 ++ o2) /\ means a "--format")
  /\ (f_check o = true <-> exists a, In a (o1 ++ o2) /\ means a "--check-format")
  /\ (f_validate o = true <-> exists a, In a (o1 ++ o2) /\ means a "--validate")
  /\ (f_verbose o = true <-> exists a, In a (o1 ++ o2) /\ means a "--verbose-validate")
  /\ ~ (f_format o = true /\ f_check o = true) /\ ~ (f_validate o = true /\ f_verbose o = true).
(** an argument that asks for help or the version: -h, perhaps with more letters, or one of the two long options *)
Definition asks_help (a : str) : Prop := means a "--help" \/ means a "--version" \/ exists r, a = "-h" ++ r.
