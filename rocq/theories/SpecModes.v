(** Vocabulary of C57-C59: how runs with other options or other inputs compare. *)
From Verif Require Import PyStr Tokeniser Ast Parser Render Validate Api PyTokens FileHandler SpecVal SpecFile SpecRun.
Local Open Scope str_scope.
Local Open Scope list_scope.

(** No file is reached under two paths *)
Definition no_links (E : env) (srcs : list str) : Prop :=
  forall f g, In (Some f) (files E srcs) -> In (Some g) (files E srcs) -> file_id E f = file_id E g -> abspath E f = abspath E g.
(** nor under two names *)
Definition one_name (E : env) (srcs : list str) : Prop :=
  forall f g, In (Some f) (files E srcs) -> In (Some g) (files E srcs) ->
  abspath E f = abspath E g \/ file_id E f = file_id E g -> f = g.

(** [announces a b]: [b] is [a] but for the announced changes, each of which is made *)
Inductive announces : list event -> list event -> Prop :=
| announces_nil : announces [] []
| announces_same : forall e a b,
    (forall f x, e <> EWrite f x) -> (forall x, e <> EPrint ("would reformat " ++ x)) ->
    announces a b -> announces (e :: a) (e :: b)
| announces_file : forall f x n a b, announces a b ->
    announces (EPrint ("would reformat " ++ f ++ " (" ++ n ++ " changed SQL)") :: a)
              (EWrite f x :: EPrint ("reformatted " ++ f ++ " (" ++ n ++ " changed SQL)") :: b).

(** No file failed *)
Definition no_complaint (t : list event) : Prop := forall f e, ~ In (complaint f e) t.
(** What a run shows of formatting: writing, and the lines about it *)
Definition about_format (e : event) : bool :=
  match e with
  | EWrite _ _ => true
  | EPrint x => startswith "reformatted " x || startswith "would reformat " x
  | _ => false
  end.
