(** Python values the code manipulates: strings, exceptions, and the [str] / [int] methods used.

    A Python [str] is a list of code points.  Simplification, used throughout the model:
    [str.lower], [str.upper] and [str.isdigit] act on ASCII letters and digits only; every code
    point above 127 is treated as having no case and not being a digit.  The model is therefore
    exact on texts whose non-ASCII characters are caseless non-digits (CJK, emoji, punctuation,
    ...) and on all ASCII texts. *)
From Coq Require Export List Bool Arith NArith ZArith Lia.
From Coq Require Import DecimalN.
From Coq.Strings Require Import Byte.
Export ListNotations.

Definition str := list N.

(** String literals ["..."%str] for [list N] (notation only). *)
Inductive str_lit := SNil | SCons (c : N) (s : str_lit).
Definition str_lit_parse (l : list Byte.byte) : str_lit :=
  fold_right (fun b r => SCons (Byte.to_N b) r) SNil l.
Fixpoint str_lit_print (l : str_lit) : option (list Byte.byte) :=
  match l with
  | SNil => Some []
  | SCons c r =>
    match Byte.of_N c, str_lit_print r with Some b, Some r => Some (b :: r) | _, _ => None end
  end.
Declare Scope str_scope.
Delimit Scope str_scope with str.
Set Warnings "-via-type-remapping,-via-type-mismatch".
String Notation str str_lit_parse str_lit_print
  (via str_lit mapping [[nil] => SNil, [cons] => SCons]) : str_scope.
Set Warnings "+via-type-remapping,+via-type-mismatch".

(** Python exceptions as values.  [OutOfFuel] is not a Python exception: it marks that the model
    was run with too little fuel.  Messages are kept only for [ParsingError] (the only exception
    whose text is observable through the API, as an entry of [SQLQuery.errors]).  [OtherError] stands
    for exceptions of the surroundings (OSError, tokenize.TokenError, UnicodeDecodeError, ...). *)
Inductive exn :=
| StopIteration | ParsingError (msg : str) | AssertionError | ValueError | IndexError
| AttributeError | TypeError | RecursionError | OtherError (name : str) | OutOfFuel.

Inductive R (A : Type) := Ok (a : A) | Err (e : exn).
Arguments Ok {A} a.
Arguments Err {A} e.

Definition rbind {A B} (r : R A) (f : A -> R B) : R B :=
  match r with Ok a => f a | Err e => Err e end.
Notation "x <- e ;; f" := (rbind e (fun x => f)) (at level 61, e at next level, right associativity).
Notation "' p <- e ;; f" := (rbind e (fun p => f))
  (at level 61, p pattern, e at next level, right associativity).

(** [[f(x) for x in l]] with exceptions. *)
Definition rmap {A B} (f : A -> R B) : list A -> R (list B) :=
  fix go (l : list A) : R (list B) :=
  match l with
  | [] => Ok []
  | x :: r => y <- f x ;; ys <- go r ;; Ok (y :: ys)
  end.

(** An [assert] statement. *)
Definition rassert (b : bool) : R unit := if b then Ok tt else Err AssertionError.

Fixpoint str_eqb (a b : str) : bool :=
  match a, b with
  | [], [] => true
  | x :: a', y :: b' => N.eqb x y && str_eqb a' b'
  | _, _ => false
  end.

(** [s in (..., ...)] *)
Definition mem (s : str) (l : list str) : bool := existsb (str_eqb s) l.

(** Optional strings: a token variable that may be [None]. *)
Definition opt_eqb (o : option str) (s : str) : bool :=
  match o with Some t => str_eqb t s | None => false end.
Definition opt_mem (o : option str) (l : list str) : bool :=
  match o with Some t => mem t l | None => false end.
(** Python truth value of an optional string. *)
Definition truthy (o : option str) : bool :=
  match o with Some (_ :: _) => true | _ => false end.

Definition is_upper_c (c : N) : bool := ((65 <=? c) && (c <=? 90))%N.
Definition is_lower_c (c : N) : bool := ((97 <=? c) && (c <=? 122))%N.
Definition is_digit_c (c : N) : bool := ((48 <=? c) && (c <=? 57))%N.
Definition lower_c (c : N) : N := if is_upper_c c then (c + 32)%N else c.
Definition upper_c (c : N) : N := if is_lower_c c then (c - 32)%N else c.
(** [s.lower()], [s.upper()] *)
Definition lower (s : str) : str := map lower_c s.
Definition upper (s : str) : str := map upper_c s.
(** tokeniser.py:24-25 [lower(s)] on an optional token. *)
Definition olower (o : option str) : option str := option_map lower o.

(** [s.isdigit()] *)
Definition isdigit (s : str) : bool :=
  match s with [] => false | _ => forallb is_digit_c s end.

(** [s.startswith(p)], [s.endswith(p)] *)
Fixpoint startswith (p s : str) : bool :=
  match p, s with
  | [], _ => true
  | x :: p', y :: s' => N.eqb x y && startswith p' s'
  | _ :: _, [] => false
  end.
Definition endswith (p s : str) : bool := startswith (rev p) (rev s).

(** [sub in s] for strings, and for a one-character [sub]. *)
Fixpoint contains (sub s : str) : bool :=
  startswith sub s || match s with [] => false | _ :: r => contains sub r end.
Definition has (c : N) (s : str) : bool := existsb (N.eqb c) s.

(** [s.split(sep)] for a one-character separator. *)
Fixpoint split (sep : N) (s : str) : list str :=
  match s with
  | [] => [[]]
  | c :: r =>
    if N.eqb c sep then [] :: split sep r
    else match split sep r with p :: ps => (c :: p) :: ps | [] => [[c]] end
  end.

(** [sep.join(l)] *)
Fixpoint join (sep : str) (l : list str) : str :=
  match l with
  | [] => []
  | [x] => x
  | x :: r => x ++ sep ++ join sep r
  end.

(** [s.replace(c, r)] for a one-character [c]. *)
Definition replace_c (c : N) (r : str) (s : str) : str :=
  flat_map (fun x => if N.eqb x c then r else [x]) s.

(** [s.lstrip(chars)] *)
Fixpoint lstrip (chars : list N) (s : str) : str :=
  match s with
  | c :: r => if existsb (N.eqb c) chars then lstrip chars r else s
  | [] => []
  end.

(** [s.splitlines()] (line boundaries as in CPython's [str.splitlines]). *)
Definition is_linebreak (c : N) : bool :=
  existsb (N.eqb c) [10; 11; 12; 13; 28; 29; 30; 133; 8232; 8233]%N.
Fixpoint splitlines (s : str) : list str :=
  match s with
  | [] => []
  | c :: r =>
    if is_linebreak c then
      [] :: (match r with
             | d :: r' => if N.eqb c 13 && N.eqb d 10 then splitlines r' else splitlines r
             | [] => []
             end)
    else match splitlines r with p :: ps => (c :: p) :: ps | [] => [[c]] end
  end.

(** [s.split(" ", maxsplit=1)[0]] *)
Fixpoint before_space (s : str) : str :=
  match s with
  | c :: r => if N.eqb c 32 then [] else c :: before_space r
  | [] => []
  end.

(** ** Integers: [int(s)] and [str(n)] *)
Fixpoint str_of_uint (d : Decimal.uint) : str :=
  match d with
  | Decimal.Nil => []
  | Decimal.D0 d => 48%N :: str_of_uint d | Decimal.D1 d => 49%N :: str_of_uint d
  | Decimal.D2 d => 50%N :: str_of_uint d | Decimal.D3 d => 51%N :: str_of_uint d
  | Decimal.D4 d => 52%N :: str_of_uint d | Decimal.D5 d => 53%N :: str_of_uint d
  | Decimal.D6 d => 54%N :: str_of_uint d | Decimal.D7 d => 55%N :: str_of_uint d
  | Decimal.D8 d => 56%N :: str_of_uint d | Decimal.D9 d => 57%N :: str_of_uint d
  end.
Definition uint_cons (c : N) (d : Decimal.uint) : Decimal.uint :=
  match (c - 48)%N with
  | 0 => Decimal.D0 d | 1 => Decimal.D1 d | 2 => Decimal.D2 d | 3 => Decimal.D3 d
  | 4 => Decimal.D4 d | 5 => Decimal.D5 d | 6 => Decimal.D6 d | 7 => Decimal.D7 d
  | 8 => Decimal.D8 d | _ => Decimal.D9 d
  end%N.
Fixpoint uint_of_str (s : str) : Decimal.uint :=
  match s with [] => Decimal.Nil | c :: r => uint_cons c (uint_of_str r) end.

(** Value of a non-empty sequence of ASCII digits.  Not modelled: CPython >= 3.11 refuses more
    than 4300 digits with a [ValueError]. *)
Definition N_of_digits (s : str) : N := N.of_uint (uint_of_str s).
(** [str(n)] *)
Definition str_of_N (n : N) : str := str_of_uint (N.to_uint n).
Definition str_of_Z (z : Z) : str :=
  match z with
  | Z0 => str_of_N 0
  | Zpos p => str_of_N (Npos p)
  | Zneg p => 45%N :: str_of_N (Npos p)
  end.

(** [int(s)] for an arbitrary token: optional surrounding blanks, optional sign, digits with
    single underscores between them; anything else is a [ValueError]. *)
Definition is_space_c (c : N) : bool :=
  existsb (N.eqb c) [9; 10; 11; 12; 13; 28; 29; 30; 31; 32; 133; 160]%N.
Fixpoint dropwhile (f : N -> bool) (s : str) : str :=
  match s with c :: r => if f c then dropwhile f r else s | [] => [] end.
Definition strip (s : str) : str := rev (dropwhile is_space_c (rev (dropwhile is_space_c s))).
(** digits, with single underscores only between digits; returns the digits *)
Fixpoint digits_us (prev_digit : bool) (s : str) : option str :=
  match s with
  | [] => if prev_digit then Some [] else None
  | c :: r =>
    if is_digit_c c then option_map (cons c) (digits_us true r)
    else if N.eqb c 95 && prev_digit then digits_us false r else None
  end.
Definition py_int (s : str) : R Z :=
  let s := strip s in
  let '(neg, body) := match s with
    | c :: r => if N.eqb c 45 then (true, r) else if N.eqb c 43 then (false, r) else (false, s)
    | [] => (false, []) end in
  match digits_us false body with
  | Some d => let v := Z.of_N (N_of_digits d) in Ok (if neg then (- v)%Z else v)
  | None => Err ValueError
  end.
