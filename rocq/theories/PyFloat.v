(** [float(text)] and [str(float)] of CPython for the decimal texts the parser passes to it.

    lexer.py:564-565 and 738-743 call [float] only on tokens whose non-dot characters are digits.
    [float(text)] is the IEEE-754 double nearest to the decimal (ties to even); [str] of it is
    the shortest digit string that reads back to the same double (closest one among those),
    written with an exponent when the decimal point position is <= -4 or > 16.  All of this is
    computed here in exact integer arithmetic. *)
From Verif Require Import PyStr.
Local Open Scope Z_scope.

(** A non-negative rational [num/den]. *)
Definition pow10 (k : Z) : Z := Z.pow 10 k.

(** Nearest double of num/den (num > 0, den > 0) as mantissa and exponent [m * 2^e]; [None] is
    overflow to infinity; mantissa 0 is underflow to zero. *)
Definition scale2 (num den e : Z) : Z * Z := (* num/den * 2^-e as a fraction *)
  if 0 <=? e then (num, den * 2 ^ e) else (num * 2 ^ (- e), den).
Definition round_div (a b : Z) : Z := (* nearest integer of a/b, ties to even *)
  let q := a / b in
  let r := 2 * (a - q * b) in
  if r <? b then q else if b <? r then q + 1 else if Z.even q then q else q + 1.
Definition to_double (num den : Z) : option (Z * Z) :=
  let e0 := Z.log2 num - Z.log2 den - 53 in
  let fits e := let '(a, b) := scale2 num den e in a <? b * 2 ^ 53 in
  let e1 := if fits e0 then e0 else if fits (e0 + 1) then e0 + 1 else e0 + 2 in
  let e := Z.max e1 (-1074) in
  let '(a, b) := scale2 num den e in
  let m := round_div a b in
  let '(m, e) := if m =? 2 ^ 53 then (2 ^ 52, e + 1) else (m, e) in
  if 971 <? e then None else Some (m, e).

Definition frac_of (m e : Z) : Z * Z := if 0 <=? e then (m * 2 ^ e, 1) else (m, 2 ^ (- e)).

(** [p] with 10^(p-1) <= num/den < 10^p. *)
Definition lt_pow10 (num den p : Z) : bool :=
  if 0 <=? p then num <? den * pow10 p else num * pow10 (- p) <? den.
Definition decpt_of (num den : Z) : Z :=
  let est := ((Z.log2 num - Z.log2 den) * 30103) / 100000 in
  if lt_pow10 num den (est - 1) then est - 1
  else if lt_pow10 num den est then est
  else if lt_pow10 num den (est + 1) then est + 1
  else est + 2.

Definition same_double (m e num den : Z) : bool :=
  if num =? 0 then false else
  match to_double num den with Some (m', e') => (m =? m') && (e =? e') | None => false end.

(** The [n]-digit candidates next to the value, as integers to be scaled by 10^(p-n). *)
Definition candidate (m e p n : Z) : option Z :=
  let '(num, den) := frac_of m e in
  let sc := n - p in
  let '(a, b) := if 0 <=? sc then (num * pow10 sc, den) else (num, den * pow10 (- sc)) in
  let f := a / b in
  let back d := if 0 <=? sc then same_double m e d (pow10 sc)
                else same_double m e (d * pow10 (- sc)) 1 in
  let lo := back f in
  let hi := back (f + 1) in
  if lo && hi then
    let r := 2 * (a - f * b) in
    Some (if r <? b then f else if b <? r then f + 1 else if Z.even f then f else f + 1)
  else if lo then Some f
  else if hi then Some (f + 1)
  else None.
Fixpoint shortest (fuel : nat) (m e p n : Z) : Z * Z :=
  match fuel with
  | O => (0, n)
  | S k => match candidate m e p n with Some d => (d, n) | None => shortest k m e p (n + 1) end
  end.

Fixpoint strip_zeros_rev (s : str) : str :=
  match s with 48%N :: r => strip_zeros_rev r | _ => s end.

(** Text for digit string [ds] (no trailing zeros) with value 0.[ds] * 10^[p]. *)
Definition layout (ds : str) (p : Z) : str :=
  let len := Z.of_nat (length ds) in
  if (p <=? -4) || (16 <? p) then
    let e := p - 1 in
    let mant := match ds with
                | [d] => [d]
                | d :: r => d :: 46%N :: r
                | [] => []
                end in
    let ae := str_of_Z (Z.abs e) in
    mant ++ [101%N] ++ [if e <? 0 then 45%N else 43%N]
      ++ (if (length ae <? 2)%nat then 48%N :: ae else ae)
  else if p <=? 0 then
    [48%N; 46%N] ++ repeat 48%N (Z.to_nat (- p)) ++ ds
  else if len <=? p then
    ds ++ repeat 48%N (Z.to_nat (p - len)) ++ [46%N; 48%N]
  else firstn (Z.to_nat p) ds ++ [46%N] ++ skipn (Z.to_nat p) ds.

Definition repr_double (m e : Z) : str :=
  if m =? 0 then [48; 46; 48]%N else
  let '(num, den) := frac_of m e in
  let p := decpt_of num den in
  let '(d, n) := shortest 18 m e p 1 in
  let ds0 := str_of_Z d in
  (* a candidate rounded up to 10^n has one more digit *)
  let p' := p + (Z.of_nat (length ds0) - n) in
  layout (rev (strip_zeros_rev (rev ds0))) p'.

Definition dot : N := 46.
(** [str(float(s))] for [s] with [s.replace(".", "").isdigit()]; more than one dot is a
    [ValueError]. *)
Definition float_text (s : str) : R str :=
  match split dot s with
  | [a] =>
    let n := Z.of_N (N_of_digits a) in
    if n =? 0 then Ok [48; 46; 48]%N else
    Ok (match to_double n 1 with Some (m, e) => repr_double m e | None => [105; 110; 102]%N end)
  | [a; b] =>
    let n := Z.of_N (N_of_digits (a ++ b)) in
    if n =? 0 then Ok [48; 46; 48]%N else
    Ok (match to_double n (pow10 (Z.of_nat (length b))) with
        | Some (m, e) => repr_double m e
        | None => [105; 110; 102]%N
        end)
  | _ => Err ValueError
  end.
