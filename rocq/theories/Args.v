(** Model of main.py: the command line.  argparse.ArgumentParser.parse_args of CPython 3.11 for the parser that
    main.py:9-44 builds; line numbers of argparse.py are those of 3.11.10.  All its options take no argument, its one
    positional argument has nargs "+".  Texts printed by argparse are not modelled; only the exit status is. *)
From Verif Require Import PyStr Lib PyTokens FileHandler.
Local Open Scope str_scope.
Local Open Scope list_scope.

(** main.py:12-42, in the order in which the option strings are added (-h and --help by argparse.py:1774-1778) *)
Inductive action := AHelp | AVersion | ACheck | AFormat | AValidate | AVerbose.
Definition OPTION_STRINGS : list (str * action) :=
  [("-h", AHelp); ("--help", AHelp); ("--version", AVersion); ("--check-format", ACheck); ("--format", AFormat);
   ("--validate", AValidate); ("--verbose-validate", AVerbose)].
Definition lookup (o : str) : option action := option_map snd (find (fun x => str_eqb (fst x) o) OPTION_STRINGS).

(** [s.partition("=")]: the text before, whether there is one, the text after *)
Fixpoint partition_eq (s : str) : str * bool * str :=
  match s with
  | [] => ([], false, [])
  | c :: r => if N.eqb c 61 then ([], true, r) else let '(a, b, d) := partition_eq r in (c :: a, b, d)
  end.

(** The regular expression of negative numbers, argparse.py:1386: ^-\d+$|^-\d*\.\d+$; a line end may follow.
    \d for ASCII only. *)
Definition chop_nl (s : str) : str := if endswith [10]%N s then removelast s else s.
Definition negative_number (s : str) : bool :=
  match chop_nl s with
  | c :: r => N.eqb c 45 && (isdigit r || match split 46 r with [a; b] => forallb is_digit_c a && isdigit b | _ => false end)
  | [] => false
  end.

(** What _parse_optional makes of an argument: positional, an error, or (action, option_string, sep, explicit_arg) *)
Definition opt_tuple : Type := option action * str * option str * option str.
Inductive reading := Positional | Ambiguous | Optional (t : opt_tuple).

(** argparse.py:2300-2340 _get_option_tuples; [s] has at least two characters, the first is a dash *)
Definition option_tuples (s : str) : list opt_tuple :=
  if startswith "--" s then
    let '(p, sep, e) := partition_eq s in
    map (fun x => (Some (snd x), fst x, if sep then Some "=" else None, if sep then Some e else None))
        (filter (fun x => startswith p (fst x)) OPTION_STRINGS)
  else
    flat_map (fun x => if str_eqb (fst x) (firstn 2 s) then [(Some (snd x), fst x, Some "", Some (skipn 2 s))]
                       else if startswith s (fst x) then [(Some (snd x), fst x, None, None)] else []) OPTION_STRINGS.
(** argparse.py:2243-2298 _parse_optional *)
Definition parse_optional (s : str) : reading :=
  match s with
  | [] => Positional
  | c :: r =>
    if negb (N.eqb c 45) then Positional else
    match lookup s with
    | Some x => Optional (Some x, s, None, None)
    | None =>
      match r with
      | [] => Positional
      | _ =>
        let '(o, sep, e) := partition_eq s in
        match (if sep then lookup o else None) with
        | Some x => Optional (Some x, o, Some "=", Some e)
        | None =>
          match option_tuples s with
          | _ :: _ :: _ => Ambiguous
          | [t] => Optional t
          | [] => if negative_number s then Positional else if has 32 s then Positional else Optional (None, s, None, None)
          end
        end
      end
    end
  end.

(** argparse.py:1936-1959: each argument with its letter O, A or -; [None] if an option is ambiguous *)
Inductive mark := MO (t : opt_tuple) | MA | MD.
Fixpoint marks (l : list str) : option (list (mark * str)) :=
  match l with
  | [] => Some []
  | a :: r =>
    if str_eqb a "--" then Some ((MD, a) :: map (pair MA) r)
    else match parse_optional a with
         | Ambiguous => None
         | Positional => option_map (cons (MA, a)) (marks r)
         | Optional t => option_map (cons (MO t, a)) (marks r)
         end
  end.

(** The namespace, whether the positional argument was consumed, and the extras *)
Record parsing := mk_parsing { p_src : option (list str); p_opts : options; p_extras : list str }.
Inductive outcome := Exit (status : nat) | Go (p : parsing).
Definition add_extra (p : parsing) (l : list str) : parsing := mk_parsing (p_src p) (p_opts p) (p_extras p ++ l).
Definition set_opts (p : parsing) (o : options) : parsing := mk_parsing (p_src p) o (p_extras p).

(** argparse.py:1965-1983 take_action for an option: the exclusive groups of main.py:19 and 35 *)
Definition take_action (x : action) (p : parsing) : outcome :=
  let o := p_opts p in
  match x with
  | AHelp | AVersion => Exit 0
  | ACheck => if f_format o then Exit 2 else Go (set_opts p (mk_opts false true (f_validate o) (f_verbose o)))
  | AFormat => if f_check o then Exit 2 else Go (set_opts p (mk_opts true false (f_validate o) (f_verbose o)))
  | AValidate => if f_verbose o then Exit 2 else Go (set_opts p (mk_opts (f_format o) (f_check o) true false))
  | AVerbose => if f_validate o then Exit 2 else Go (set_opts p (mk_opts (f_format o) (f_check o) false true))
  end.
Fixpoint take_actions (l : list action) (p : parsing) : outcome :=
  match l with
  | [] => Go p
  | x :: l => match take_action x p with Exit n => Exit n | Go p => take_actions l p end
  end.

(** argparse.py:1996-2050: an option with an explicit argument; [None] is the ArgumentError.  The result: the
    actions in this word, and an extra. *)
Fixpoint cluster (x : action) (o sep e : str) : option (list action * list str) :=
  match nth_error o 1 with
  | Some d =>
    if N.eqb d 45 then None else
    match e with
    | [] => None
    | c :: r =>
      if negb (str_eqb sep "") || N.eqb c 45 then None
      else match lookup [45; c]%N with
           | Some y =>
             match r with
             | [] => Some ([x; y], [])
             | d :: r' => option_map (fun z => (x :: fst z, snd z))
                            (if N.eqb d 61 then cluster y [45; c]%N "=" r' else cluster y [45; c]%N "" r)
             end
           | None => Some ([x], [45%N :: e])
           end
    end
  | None => None
  end.
(** argparse.py:1986-2069 consume_optional *)
Definition consume_optional (t : opt_tuple) (a : str) (p : parsing) : outcome :=
  match t with
  | (None, _, _, _) => Go (add_extra p [a])
  | (Some x, _, _, None) => take_action x p
  | (Some x, o, sep, Some e) =>
    match cluster x o (match sep with Some s => s | None => [] end) e with
    | None => Exit 2
    | Some (xs, extra) => take_actions xs (add_extra p extra)
    end
  end.

(** argparse.py:2227-2241, 2361: how many arguments match -*A[A-]* *)
Fixpoint span_args (l : list (mark * str)) : nat :=
  match l with (MO _, _) :: _ | [] => 0 | _ :: r => S (span_args r) end.
Fixpoint match_plus (l : list (mark * str)) : option nat :=
  match l with
  | (MD, _) :: r => option_map S (match_plus r)
  | (MA, _) :: r => Some (S (span_args r))
  | _ => None
  end.
(** argparse.py:2475-2481 (_get_values): the first -- is removed *)
Fixpoint remove_dashes (l : list str) : list str :=
  match l with [] => [] | a :: r => if str_eqb a "--" then r else a :: remove_dashes r end.

(** argparse.py:2094-2134, the loop over options and positional arguments; [skip] arguments were consumed already.  The
    code puts several arguments at once among the extras, here they are put there one by one. *)
Fixpoint args_loop (skip : nat) (l : list (mark * str)) (p : parsing) : outcome :=
  match l with
  | [] => Go p
  | (m, a) :: r =>
    match skip with
    | S k => args_loop k r p
    | O =>
      match m with
      | MO t => match consume_optional t a p with Exit n => Exit n | Go p => args_loop 0 r p end
      | _ =>
        match p_src p, match_plus l with
        | None, Some (S n) => args_loop n r (mk_parsing (Some (remove_dashes (firstn (S n) (map snd l)))) (p_opts p) (p_extras p))
        | _, _ => args_loop 0 r (add_extra p [a])
        end
      end
    end
  end.

(** argparse.py:1873-1878, 2136-2157 parse_args: the files and the options, or the exit status *)
Inductive parsed := Quit (status : nat) | Parsed (srcs : list str) (o : options).
Definition parse_args (argv : list str) : parsed :=
  match marks argv with
  | None => Quit 2
  | Some l =>
    match args_loop 0 l (mk_parsing None (mk_opts false false false false) []) with
    | Exit n => Quit n
    | Go p => match p_src p, p_extras p with Some s, [] => Parsed s (p_opts p) | _, _ => Quit 2 end
    end
  end.

(** main.py:8-58 [_main] *)
Definition program (E : env) (argv : list str) (w : world) : nat * world :=
  match parse_args argv with
  | Quit n => (n, w)
  | Parsed srcs o => main E o srcs w
  end.
