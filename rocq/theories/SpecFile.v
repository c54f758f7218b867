(** Vocabulary of the properties of one Python file: what happens to each token. *)
From Verif Require Import PyStr Tokeniser Ast Parser Render Validate Api PyTokens FileHandler SpecVal.
Local Open Scope str_scope.
Local Open Scope list_scope.

(** The token that decides about a string: the next comment, string or end of file *)
Definition is_marker (t : pytok) : bool :=
  match t_type t with TEnd | TComment | TString => true | _ => false end.

(** A string literal whose text counts as SQL (C38 says which ones) *)
Definition sql_string (t : pytok) : bool :=
  match t_type t with TString => is_select_string (t_text t) | _ => false end.

(** The literal as the formatter rewrites it, and the errors of its query *)
Definition rewritten (s : str) : str :=
  match handle_sql_string s with Ok (v, _) => v | Err _ => s end.
Definition query_errors (ord : fields -> fields) (s : str) : list str :=
  match handle_sql_string s with
  | Ok (_, q) =>
    match errors_of ord (q_sql q) with
    | Ok es => es
    | Err (ParsingError m) => [m]
    | Err _ => []
    end
  | Err _ => []
  end.

Section File.
  Variable ord : fields -> fields.
  Variables fmt val : bool.        (* formatting / checking, validating wanted *)

  (** The text of [t] in the new file, given the tokens after it *)
  Definition new_text (t : pytok) (following : list pytok) : str :=
    if sql_string t then
      match following, find is_marker following with
      | [], _ => rewritten (t_text t)
      | _, None => t_text t
      | _, Some x =>
        if contains "nosqlformat" (t_text x) then t_text t
        else if tktype_eqb (t_type x) TComment && negb fmt
                && (negb val || contains "nosqlvalidation" (t_text x)) then t_text t
        else rewritten (t_text t)
      end
    else t_text t.

  (** Line and errors reported for [t]: at most one entry *)
  Definition report_of (t : pytok) (following : list pytok) : list (Z * list str) :=
    if sql_string t
       && match following, find is_marker following with
          | [], _ => true
          | _, None => false
          | _, Some x => val && negb (contains "nosqlvalidation" (t_text x))
          end
    then match query_errors ord (t_text t) with
         | [] => []
         | es => [(fst (t_start t), es)]
         end
    else [].

  (** [handled]: the query of [t] is looked at; [checked]: it is also validated *)
  Definition handled (t : pytok) (following : list pytok) : bool :=
    sql_string t
    && match following, find is_marker following with
       | [], _ => true
       | _, None => false
       | _, Some x =>
         negb (tktype_eqb (t_type x) TComment) || fmt && negb (contains "nosqlformat" (t_text x))
         || val && negb (contains "nosqlvalidation" (t_text x))
       end.
  Definition checked (t : pytok) (following : list pytok) : bool :=
    sql_string t
    && match following, find is_marker following with
       | [], _ => true
       | _, None => false
       | _, Some x => val && negb (contains "nosqlvalidation" (t_text x))
       end.
  (** [t] makes the analysis of the file fail with [e] *)
  Inductive fails (t : pytok) (following : list pytok) (e : exn) : Prop :=
  | fails_format : handled t following = true -> handle_sql_string (t_text t) = Err e ->
      fails t following e
  | fails_validate : forall v q, checked t following = true -> handle_sql_string (t_text t) = Ok (v, q) ->
      errors_of ord (q_sql q) = Err e -> (forall m, e <> ParsingError m) -> fails t following e.

  Fixpoint new_tokens (ts : list pytok) : list pytok :=
    match ts with
    | [] => []
    | t :: r => mk_tok (t_type t) (new_text t r) (t_start t) (t_end t) :: new_tokens r
    end.
  Fixpoint reports (ts : list pytok) : list (Z * list str) :=
    match ts with
    | [] => []
    | t :: r => report_of t r ++ reports r
    end.
End File.

(** Number of positions where the texts differ *)
Fixpoint differences (a b : list pytok) : nat :=
  match a, b with
  | x :: a, y :: b => (if str_eqb (t_text x) (t_text y) then 0 else 1) + differences a b
  | _, _ => 0
  end.

(** The texts that reach the file: all but indentation changes, up to the end marker *)
Fixpoint printed (ts : list pytok) : list str :=
  match ts with
  | [] => []
  | t :: r =>
    match t_type t with
    | TEnd => []
    | TIndent | TDedent => printed r
    | _ => t_text t :: printed r
    end
  end.
(** Texts with the white space in front of each *)
Fixpoint weave (ws texts : list str) : str :=
  match ws, texts with
  | w :: ws, t :: ts => w ++ t ++ weave ws ts
  | _, _ => []
  end.

(** The prefixes and quotes of Python 3 string literals *)
Definition legal_prefix (p : str) : Prop :=
  In (lower p) [""; "r"; "u"; "f"; "b"; "fr"; "rf"; "br"; "rb"].
Definition legal_quote (q : str) : Prop := In q ["'"; """"; "'''"; """"""""].
(** a body that can stand between [q]s: in one-character quotes it does not begin with that quote *)
Definition fits (q body : str) : Prop :=
  length q = 1 -> forall c r, body = c :: r -> q <> [c].

(** The literal for a formatted query: same prefix, same kind of quote; a text of several lines
    stands in triple quotes, on lines of its own. *)
Definition tripled (q : str) : str :=
  match q with [c] => [c; c; c] | _ => q end.
Definition literal (p q sql : str) : str :=
  if has 10 sql then p ++ tripled q ++ nl ++ sql ++ nl ++ tripled q else p ++ q ++ sql ++ q.
