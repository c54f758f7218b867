(** Model of sqlvalidator/grammar/tokeniser.py. *)
From Verif Require Import PyStr.
Local Open Scope str_scope.

(** tokeniser.py:3-21, character and token classes *)
Definition STRING_SPLIT_TOKENS : list N := [39; 34; 96]%N.  (* single quote, double quote, backquote *)
Definition WHITESPACE_SPLIT_TOKENS : list N := [32; 10; 9]%N.      (* space newline tab *)
Definition KEPT_SPLIT_TOKENS : list N :=
  [44; 59; 40; 41; 91; 93; 43; 45; 42; 47; 61; 60; 62; 46]%N.
  (* comma semicolon parens brackets plus minus star slash equal less greater dot *)
Definition MERGE_TOKENS : list str := ["<>"; "<="; ">="; "<<"; ">>"; "||"; "!="].

Definition is_quote (c : N) : bool := existsb (N.eqb c) STRING_SPLIT_TOKENS.
Definition is_ws (c : N) : bool := existsb (N.eqb c) WHITESPACE_SPLIT_TOKENS.
Definition is_kept (c : N) : bool := existsb (N.eqb c) KEPT_SPLIT_TOKENS.
Definition backslash : N := 92.

(** A lazily consumed token generator: the tokens it yields, then either its end ([None]) or an
    exception raised by the generator itself. *)
Definition stream := (list str * option exn)%type.
Definition sapp (a b : stream) : stream :=
  match snd a with
  | Some e => a
  | None => (fst a ++ fst b, snd b)
  end.

(** tokeniser.py:99-113 [split_with_escaping], the gluing loop over the parts of [s.split(sep)].
    [if next_value: value += next_value] adds nothing for an empty part, so the test is dropped. *)
Fixpoint glue (sep : N) (parts : list str) : list str :=
  match parts with
  | [] => []
  | v :: r =>
    if endswith [backslash] v then
      match r with
      | [] => [v ++ [sep]]
      | n :: r' => (v ++ [sep] ++ n) :: glue sep r'
      end
    else v :: glue sep r
  end.
Definition split_with_escaping (s : str) (sep : N) : list str := glue sep (split sep s).

(** tokeniser.py:89-96 [split_with_sep].  [splitted] is never empty. *)
Definition nonempty (w : str) : list str := match w with [] => [] | _ => [w] end.
Fixpoint interleave (sep : N) (parts : list str) : list str :=
  match parts with
  | [] => []
  | [w] => nonempty w
  | w :: r => nonempty w ++ [sep] :: interleave sep r
  end.
Definition split_with_sep (s : str) (sep : N) : list str := interleave sep (split_with_escaping s sep).

(** tokeniser.py:139-149 [_split_on_string_token] (loop body; [rec] is [split_tokens]). *)
Fixpoint string_parts (rec : str -> stream) (q : N) (in_str : bool) (elems : list str) : stream :=
  match elems with
  | [] => ([], None)
  | e :: r =>
    if str_eqb e [q] then sapp ([e], None) (string_parts rec q (negb in_str) r)
    else if in_str then sapp ([e], None) (string_parts rec q in_str r)
    else sapp (rec e) (string_parts rec q in_str r)
  end.

Fixpoint flat_stream (rec : str -> stream) (elems : list str) : stream :=
  match elems with
  | [] => ([], None)
  | e :: r => sapp (rec e) (flat_stream rec r)
  end.

(** tokeniser.py:159, the test that keeps a decimal number in one piece *)
Definition no_dots (v : str) : str := replace_c 46 [] v.
Definition is_number_text (v : str) : bool := has 46 v && isdigit (no_dots v).

(** tokeniser.py:166-185 [split_tokens].  Lines 167-171 sort the quote characters by their first
    position and take the first one present: that is the first quote character in [value].
    The recursion runs on fuel; when it is used up the generator raises [RecursionError]
    (ProofTok shows that with the fuel given by [to_tokens] this happens exactly when the
    recursion is infinite). *)
Fixpoint split_tokens (fuel : nat) (value : str) : stream :=
  match fuel with
  | O => ([], Some RecursionError)
  | S fuel =>
    match find is_quote value with
    | Some q => string_parts (split_tokens fuel) q false (split_with_sep value q)
    | None =>
      match find (fun w => has w value) WHITESPACE_SPLIT_TOKENS with
      | Some w =>                                   (* 152-155 _split_on_whitespace_token *)
        flat_stream (split_tokens fuel) (filter (fun e => negb (str_eqb e [])) (split w value))
      | None =>
        match find (fun k => has k value && negb (str_eqb value [k])) KEPT_SPLIT_TOKENS with
        | Some k =>                                 (* 158-163 _split_on_kept_token *)
          if N.eqb k 46 && is_number_text value then ([value], None)
          else flat_stream (split_tokens fuel) (split_with_sep value k)
        | None => ([value], None)
        end
      end
    end
  end.

(** tokeniser.py:116-136 [merge_stream]. *)
Fixpoint merge_stream (goals : list str) (s : list str) (eos : option exn) : stream :=
  match s with
  | [] => ([], eos)
  | e :: r =>
    let matching := filter (fun g => startswith e g) goals in
    match matching with
    | [] => sapp ([e], None) (merge_stream goals r eos)
    | _ =>
      match r with
      | [] => match eos with Some x => ([], Some x) | None => ([e], None) end
      | n :: r' =>
        match n with
        | [] => sapp ([e], None) (merge_stream goals r' eos)
        | _ =>
          match filter (fun g => str_eqb (e ++ n) g) matching with
          | [] => sapp ([e; n], None) (merge_stream goals r' eos)
          | [g] => sapp ([g], None) (merge_stream goals r' eos)
          | _ => ([], Some ValueError)
          end
        end
      end
    end
  end.

(** tokeniser.py:188-190 [to_tokens]. *)
Definition raw_tokens (value : str) : stream := split_tokens (S (length value)) value.
Definition to_tokens (value : str) : stream :=
  let '(l, eos) := raw_tokens value in merge_stream MERGE_TOKENS l eos.

(** ** Reading from the token iterator.  The iterator is the list of tokens still to come plus
    [eos]: what happens after the last one (as in [stream]).  Iterators over Python lists have
    [eos = None]. *)
(** [next(tokens, None)] *)
Definition next_opt (eos : option exn) (ts : list str) : R (option str * list str) :=
  match ts with
  | t :: r => Ok (Some t, r)
  | [] => match eos with None => Ok (None, []) | Some e => Err e end
  end.
(** [next(tokens)] *)
Definition next_req (eos : option exn) (ts : list str) : R (str * list str) :=
  match ts with
  | t :: r => Ok (t, r)
  | [] => match eos with None => Err StopIteration | Some e => Err e end
  end.

(** tokeniser.py:28-40 [get_tokens_until_closing_parenthesis]; returns the argument tokens and
    the remaining iterator. *)
Fixpoint until_close_loop (eos : option exn) (depth : Z) (ts : list str)
  : R (list str * list str) :=
  match ts with
  | [] => match eos with None => Ok ([], []) | Some e => Err e end
  | t :: r =>
    if str_eqb t ")" && Z.eqb depth 0 then Ok ([], r)
    else
      let depth' := if str_eqb t "(" then (depth + 1)%Z
                    else if str_eqb t ")" then (depth - 1)%Z else depth in
      '(a, rest) <- until_close_loop eos depth' r ;; Ok (t :: a, rest)
  end.
Definition until_close (eos : option exn) (first : option str) (ts : list str)
  : R (list str * list str) :=
  until_close_loop eos 0 (match first with Some (c :: s) => (c :: s) :: ts | _ => ts end).

(** tokeniser.py:43-76 [get_tokens_until_one_of]; [prev] is [argument_tokens[-1]] if any. *)
Definition in_keep (prev : option str) (t : str) (keep : list (str * str)) : bool :=
  match prev with
  | None => false
  | Some p => existsb (fun k => str_eqb (lower p) (fst k) && str_eqb (lower t) (snd k)) keep
  end.
Fixpoint until_loop (eos : option exn) (stop : list str) (keep : list (str * str))
    (par sq cas : Z) (prev : option str) (ts : list str)
  : R (list str * option str * list str) :=
  match ts with
  | [] => match eos with None => Ok ([], None, []) | Some e => Err e end
  | t :: r =>
    if mem (lower t) stop && (par <=? 0)%Z && (sq <=? 0)%Z && (cas <=? 0)%Z
       && negb (in_keep prev t keep)
    then Ok ([], Some t, r)
    else
      let '(par', sq', cas') :=
        if str_eqb t "(" then (par + 1, sq, cas)%Z
        else if str_eqb t ")" then (par - 1, sq, cas)%Z
        else if str_eqb t "[" then (par, sq + 1, cas)%Z
        else if str_eqb t "]" then (par, sq - 1, cas)%Z
        else if str_eqb (lower t) "case" then (par, sq, cas + 1)%Z
        else if str_eqb (lower t) "end" then (par, sq, cas - 1)%Z
        else (par, sq, cas) in
      '(a, nt, rest) <- until_loop eos stop keep par' sq' cas' (Some t) r ;;
      Ok (t :: a, nt, rest)
  end.
Definition until_one_of (eos : option exn) (stop : list str) (first : option str)
    (keep : list (str * str)) (ts : list str) : R (list str * option str * list str) :=
  let par := if opt_eqb first "(" then 1%Z else 0%Z in
  let sq := if opt_eqb first "[" then 1%Z else 0%Z in
  let cas := if opt_eqb first "case" then 1%Z else 0%Z in
  '(a, nt, rest) <- until_loop eos stop keep par sq cas first ts ;;
  Ok (match first with Some f => f :: a | None => a end, nt, rest).

(** tokeniser.py:79-86 [get_tokens_until_not_in] *)
Fixpoint until_not_in_loop (eos : option exn) (kept : list str) (ts : list str)
  : R (list str * option str * list str) :=
  match ts with
  | [] => match eos with None => Ok ([], None, []) | Some e => Err e end
  | t :: r =>
    if mem (lower t) kept then
      '(a, nt, rest) <- until_not_in_loop eos kept r ;; Ok (t :: a, nt, rest)
    else Ok ([], Some t, r)
  end.
Definition until_not_in (eos : option exn) (kept : list str) (first : option str) (ts : list str)
  : R (list str * option str * list str) :=
  '(a, nt, rest) <- until_not_in_loop eos kept ts ;;
  Ok (match first with Some f => f :: a | None => a end, nt, rest).
