(** Vocabulary of the property about formatting files twice: the SQL strings of a file. *)
From Verif Require Import PyStr Ast Grammar Tokeniser Parser Render Api PyTokens FileHandler SpecFile SpecRun.
Local Open Scope str_scope.
Local Open Scope list_scope.

(** If the token is an SQL string, it is a Python literal around a statement of the fragment, and
    rewriting it neither adds nor removes the word that forbids formatting. *)
Definition fragment_literal (t : pytok) : Prop :=
  sql_string t = true -> exists p q body n f,
    t_text t = p ++ q ++ body ++ q /\ legal_prefix p /\ legal_quote q /\ fits q body
    /\ parse_sql body = Ok n /\ statement n = true /\ format_sql body = Ok f
    /\ contains "nosqlformat" (literal p q f) = contains "nosqlformat" (p ++ q ++ body ++ q).

(** All SQL strings of a file content are of this kind, and Python reads the new content back as the
    tokens that were written. *)
Definition sound_content (E : env) (val : bool) (s : str) : Prop :=
  forall ts eos, gen_tokens E s = (ts, eos) ->
    (forall t, In t ts -> fragment_literal t)
    /\ forall st r, compute_tokens (set_order E) true val ts eos = Ok st ->
         compute_file_content (set_order E) true val ts eos = Ok r -> 0 < r_changed r ->
         exists ts2, gen_tokens E (r_content r) = (ts2, None)
         /\ map (fun t => (t_type t, t_text t)) ts2 = map (fun t => (t_type t, t_text t)) (c_tokens st).

(** ** String literals of Python (The Python Language Reference, 2.4.1), one literal and nothing else *)
(** [closes q s]: [s] is a body followed by the closing quotes [q]; a backslash protects the next
    character, and a body in one-character quotes stands on one line. *)
Fixpoint closes (q s : str) : bool :=
  str_eqb s q
  || negb (startswith q s)
     && match s with
        | [] => false
        | c :: r =>
          if N.eqb c 92 then match r with _ :: r => closes q r | [] => false end
          else negb ((length q =? 1) && N.eqb c 10) && closes q r
        end.
Fixpoint before_quote (s : str) : str * str :=
  match s with
  | c :: r => if N.eqb c 39 || N.eqb c 34 then ([], s) else let '(p, r) := before_quote r in (c :: p, r)
  | [] => ([], [])
  end.
Definition python_literal (s : str) : bool :=
  let '(p, s) := before_quote s in
  mem (lower p) [""; "r"; "u"; "f"; "b"; "fr"; "rf"; "br"; "rb"]
  && match s with
     | a :: b :: c :: r => if N.eqb a b && N.eqb b c then closes [a; a; a] r else closes [a] (b :: c :: r)
     | a :: r => closes [a] r
     | [] => false
     end.

(** The characters the literal stands for, if it is one and has no backslash *)
Definition python_value (s : str) : option str :=
  if python_literal s && negb (has 92 s) then
    match snd (before_quote s) with
    | a :: b :: c :: r => if N.eqb a b && N.eqb b c then Some (firstn (length r - 3) r) else Some (removelast (b :: c :: r))
    | a :: r => Some (removelast r)
    | [] => None
    end
  else None.

(** The quote character of a literal *)
Definition quote_of (q : str) : N := match q with c :: _ => c | [] => 0%N end.

(** Tokens with a brace: the replacement fields of f-strings, as far as they are not torn apart *)
Definition has_brace (t : str) : bool := has 123 t || has 125 t.
(** Parameters of queries: ?, :name, $1, %s, @name *)
Definition PARAMETER_SIGNS : list N := [63; 58; 36; 37; 64]%N.
Definition parameter (t : str) : bool := match t with c :: _ => existsb (N.eqb c) PARAMETER_SIGNS | [] => false end.
