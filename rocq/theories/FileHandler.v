(** Model of sqlvalidator/file_handler.py and of the option logic of sqlvalidator/main.py. *)
From Verif Require Import PyStr Tokeniser Ast Parser Render Validate Api PyTokens.
Local Open Scope str_scope.
Local Open Scope list_scope.

(** ** Strings of a Python file *)

Definition NO_SQLFORMAT_COMMENT : str := "nosqlformat".              (* file_handler.py:8 *)
Definition NO_SQLVALIDATION_COMMENT : str := "nosqlvalidation".      (* file_handler.py:9 *)
Definition POSSIBLE_QUOTES : list str := [""""""""; "'''"; """"; "'"].   (* file_handler.py:11 *)
Definition STRING_PREFIXES : list str :=                             (* file_handler.py:12-41 *)
  ["r"; "u"; "ur"; "R"; "U"; "UR"; "Ur"; "uR"; "f"; "F"; "fr"; "Fr"; "fR"; "FR"; "rf"; "rF";
   "Rf"; "RF"; "b"; "B"; "br"; "Br"; "bR"; "BR"; "rb"; "rB"; "Rb"; "RB"].

(** file_handler.py:397-402 [is_select_string] *)
Definition is_select_string (v : str) : bool :=
  let cleaned := lstrip [32; 10; 39; 34; 96; 117; 102; 98; 114]%N (lower v) in
  match splitlines cleaned with
  | [] => false
  | l :: _ => str_eqb (before_space l) "select"
  end.

(** file_handler.py:346-368: find prefix and quotes *)
Definition detect_quotes (s : str) : option (option str * str) :=
  match find (fun q => startswith q s && endswith q s) POSSIBLE_QUOTES with
  | Some q => Some (None, q)
  | None =>
    match find (fun pq => startswith (fst pq ++ snd pq) s && endswith (snd pq) s)
               (flat_map (fun q => map (fun p => (p, q)) STRING_PREFIXES) POSSIBLE_QUOTES) with
    | Some (p, q) => Some (Some p, q)
    | None => None
    end
  end.

(** file_handler.py:377-394: put the quotes back *)
Definition requote (prefix : option str) (quotes sql : str) : str :=
  let p := match prefix with Some p => p | None => [] end in
  let multi := has_nl sql in
  let new_quotes :=
    if (length quotes =? 1) && multi then (if str_eqb quotes "'" then "'''" else """""""")
    else quotes in
  if (length new_quotes =? 3) && multi then p ++ new_quotes ++ nl ++ sql ++ nl ++ new_quotes
  else p ++ new_quotes ++ sql ++ new_quotes.

(** [s[k:-k]] *)
Definition strip_ends (k : nat) (s : str) : str := skipn k (firstn (length s - k) s).

(** file_handler.py:341-394 [handle_sql_string]: the new literal and the query object, on which
    [format] has been called *)
Definition handle_sql_string (s : str) : R (str * query) :=
  match detect_quotes s with
  | None => Err AssertionError
  | Some (prefix, quotes) =>
    let s := match prefix with Some p => skipn (length p) s | None => s end in
    let body := strip_ends (length quotes) s in
    let '(r, q) := q_format (new_query body) in
    sql <- r ;;
    Ok (requote prefix quotes sql, q)
  end.

(** The variables of [compute_file_content] that [handle_string_token] changes *)
Record cstate := mk_c {
  c_tokens : list pytok; c_changed : nat; c_invalid : nat; c_locs : list (Z * list str) }.
Definition cstate0 : cstate := mk_c [] 0 0 [].
Definition c_append (l : list pytok) (s : cstate) : cstate :=
  mk_c (c_tokens s ++ l) (c_changed s) (c_invalid s) (c_locs s).
Definition c_count_changed (s : cstate) : cstate :=
  mk_c (c_tokens s) (S (c_changed s)) (c_invalid s) (c_locs s).
Definition c_count_invalid (line : Z) (errs : list str) (s : cstate) : cstate :=
  mk_c (c_tokens s) (c_changed s) (S (c_invalid s)) (c_locs s ++ [(line, errs)]).
Definition with_text (t : pytok) (v : str) : pytok := mk_tok (t_type t) v (t_start t) (t_end t).

Section Compute.
  Variable ord : fields -> fields.            (* iteration order of Python sets, see Validate *)
  Variable should_format should_validate : bool.

  (** [next(token_generator, (None, ...))] on a generator given as tokens and final exception *)
  Definition next_tok (eos : option exn) (ts : list pytok) : R (option (pytok * list pytok)) :=
    match ts with
    | t :: r => Ok (Some (t, r))
    | [] => match eos with None => Ok None | Some e => Err e end
    end.

  (** [if not sql_query.is_valid(): ...] (file_handler.py:270-272, 308-310) *)
  Definition check_valid (line : Z) (q : query) (s : cstate) : R cstate :=
    let '(r, q) := q_is_valid ord q in
    b <- r ;; Ok (if b then s else c_count_invalid line (q_errors q) s).

  (** file_handler.py:278-292: read on until a comment, a string, or a false token type; [x] is
      the current next_token.  [None]: the generator ended. *)
  Fixpoint read_following (eos : option exn) (x : pytok) (fol ts : list pytok)
    : R (option (pytok * list pytok * list pytok) * list pytok) :=
    match t_type x with
    | TEnd | TComment | TString => Ok (Some (x, fol, ts), fol)
    | _ =>
      match ts with
      | [] => match eos with None => Ok (None, fol) | Some e => Err e end
      | y :: r => read_following eos y (fol ++ [y]) r
      end
    end.

  (** file_handler.py:294-313: what to do with the string [t] given the token [x] found *)
  Definition decide (t x : pytok) (s : cstate) : R cstate :=
    let no_format := contains NO_SQLFORMAT_COMMENT (t_text x) in
    let needs_format := should_format && negb no_format in
    let needs_validate :=
      should_validate && negb (contains NO_SQLVALIDATION_COMMENT (t_text x)) in
    if negb (tktype_eqb (t_type x) TComment) || needs_format || needs_validate then
      '(v, q) <- handle_sql_string (t_text t) ;;
      let s :=
        if negb (str_eqb v (t_text t)) && negb no_format
        then c_count_changed (c_append [with_text t v] s)
        else c_append [t] s in
      if needs_validate then check_valid (fst (t_start t)) q s else Ok s
    else Ok (c_append [t] s).

  (** file_handler.py:247-326 [handle_string_token]; returns the generator's remaining tokens *)
  Fixpoint handle_string_token (fuel : nat) (eos : option exn) (t : pytok) (ts : list pytok)
      (s : cstate) : R (cstate * list pytok) :=
    match fuel with
    | O => Err OutOfFuel
    | S fuel =>
      if negb (is_select_string (t_text t)) then Ok (c_append [t] s, ts)
      else
        n <- next_tok eos ts ;;
        match n with
        | None =>
          '(v, q) <- handle_sql_string (t_text t) ;;
          let s := c_append [with_text t v] s in
          let s := if negb (str_eqb v (t_text t)) then c_count_changed s else s in
          s <- check_valid (fst (t_start t)) q s ;;
          Ok (s, ts)
        | Some (x, ts) =>
          '(f, fol) <- read_following eos x [x] ts ;;
          match f with
          | None => Ok (c_append (t :: fol) s, [])
          | Some (x, fol, ts) =>
            s <- decide t x s ;;
            if tktype_eqb (t_type x) TString
            then handle_string_token fuel eos x ts (c_append (removelast fol) s)
            else Ok (c_append fol s, ts)
          end
        end
    end.

  (** file_handler.py:328-336: the main loop *)
  Fixpoint file_loop (fuel : nat) (eos : option exn) (ts : list pytok) (s : cstate) : R cstate :=
    match fuel with
    | O => Err OutOfFuel
    | S fuel =>
      match ts with
      | [] => match eos with None => Ok s | Some e => Err e end
      | t :: r =>
        if tktype_eqb (t_type t) TString then
          '(s, r) <- handle_string_token fuel eos t r s ;; file_loop fuel eos r s
        else file_loop fuel eos r (c_append [t] s)
      end
    end.
  Definition compute_tokens (ts : list pytok) (eos : option exn) : R cstate :=
    file_loop (S (length ts)) eos ts cstate0.

  (** file_handler.py:239-338 [compute_file_content] *)
  Record cresult := mk_cr {
    r_changed : nat; r_content : str; r_invalid : nat; r_locs : list (Z * list str) }.
  Definition compute_file_content (ts : list pytok) (eos : option exn) : R cresult :=
    s <- compute_tokens ts eos ;;
    c <- untokenize (c_tokens s) ;;
    Ok (mk_cr (c_changed s) c (c_invalid s) (c_locs s)).
End Compute.

(** ** Runs over files *)

(** The surroundings: file system structure and the outcome of opening files and of
    [tokenize.generate_tokens].  File contents are in the state; different names may denote the same
    file ([file_id]). *)
Record env := mk_env {
  isdir : str -> bool;
  isfile : str -> bool;
  walk : str -> list str;            (* os.path.join(root, f) for all files under a directory *)
  abspath : str -> str;
  file_id : str -> N;
  open_error : str -> option exn;    (* open(f, "r") raises *)
  gen_tokens : str -> list pytok * option exn;   (* by content *)
  write_error : str -> option (exn * option str);
     (* open(f, "w") or write raises; [Some (e, Some c)]: after leaving content [c] *)
  set_order : fields -> fields }.

(** What a run does, in order.  [ERead]: a file is opened for reading, successfully or not.  [EPrintExn] is the line of file_handler.py:136 / 172-176, whose
    text contains the exception. *)
Inductive event :=
| ERead (f : str) | EWrite (f content : str) | EPrint (line : str) | EPrintExn (f : str) (e : exn).

(** The Python heap of sets of file names (file_handler.py aliases [seen_files] between objects):
    a set is a reference, an index into [heap]. *)
Record world := mk_w { heap : list (list str); contents : N -> str; trace : list event }.
Definition new_set (w : world) : nat * world :=
  (length (heap w), mk_w (heap w ++ [[]]) (contents w) (trace w)).
Definition get_set (w : world) (r : nat) : list str := nth r (heap w) [].
Fixpoint set_nth {A} (n : nat) (x : A) (l : list A) : list A :=
  match l, n with
  | [], _ => []
  | _ :: r, O => x :: r
  | y :: r, S n => y :: set_nth n x r
  end.
Definition put_set (w : world) (r : nat) (s : list str) : world :=
  mk_w (set_nth r s (heap w)) (contents w) (trace w).
Definition sadd (x : str) (s : list str) : list str := if mem x s then s else s ++ [x].
Definition sunion (a b : list str) : list str := fold_left (fun s x => sadd x s) b a.
Definition emit (e : event) (w : world) : world := mk_w (heap w) (contents w) (trace w ++ [e]).
Definition upd (f : N -> str) (k : N) (v : str) : N -> str := fun x => if N.eqb x k then v else f x.

(** file_handler.py:44-64 [InputSQLAnalyseInfo]; [i_seen] is a reference *)
Record info := mk_info {
  i_cfiles : nat; i_csql : nat; i_ifiles : nat; i_isql : nat; i_seen : nat }.
(** [InputSQLAnalyseInfo(..., seen_files)]: [seen_files or set()] *)
Definition new_info (cf cs if_ is_ : nat) (seen : option nat) (w : world) : info * world :=
  match seen with
  | Some r => match get_set w r with
              | [] => let '(r', w) := new_set w in (mk_info cf cs if_ is_ r', w)
              | _ => (mk_info cf cs if_ is_ r, w)
              end
  | None => let '(r', w) := new_set w in (mk_info cf cs if_ is_ r', w)
  end.
Definition empty_info (w : world) : info * world := new_info 0 0 0 0 None w.
(** 59-64 [update]; [self.seen_files |= other.seen_files] changes the set in place *)
Definition info_update (a b : info) (w : world) : info * world :=
  (mk_info (i_cfiles a + i_cfiles b) (i_csql a + i_csql b) (i_ifiles a + i_ifiles b)
     (i_isql a + i_isql b) (i_seen a),
   put_set w (i_seen a) (sunion (get_set w (i_seen a)) (get_set w (i_seen b)))).

Record options := mk_opts {
  f_format : bool; f_check : bool; f_validate : bool; f_verbose : bool }.

Definition str_of_nat (n : nat) : str := str_of_N (N.of_nat n).

Section Run.
  Variable E : env.
  Variable O : options.

  (** file_handler.py:181-236 [analyse_file] *)
  Definition analyse_file (f : str) (seen : nat) (w : world) : R info * world :=
    let a := abspath E f in
    if mem a (get_set w seen) then let '(i, w) := empty_info w in (Ok i, w)
    else
      let w := put_set w seen (sadd a (get_set w seen)) in
      let w := emit (ERead f) w in
      match open_error E f with
      | Some e => (Err e, w)
      | None =>
        let '(ts, eos) := gen_tokens E (contents w (file_id E f)) in
        match compute_file_content (set_order E) (f_format O || f_check O)
                (f_validate O || f_verbose O) ts eos with
        | Err e => (Err e, w)
        | Ok r =>
          let changed := 0 <? r_changed r in
          let msg what := what ++ " " ++ f ++ " (" ++ str_of_nat (r_changed r) ++ " changed SQL)" in
          (* 204-219; writing may fail *)
          let '(res, w) :=
            if changed then
              if f_format O then
                match write_error E f with
                | Some (e, None) => (Err e, w)
                | Some (e, Some c) =>
                  (Err e, mk_w (heap w) (upd (contents w) (file_id E f) c)
                            (trace w ++ [EWrite f c]))
                | None =>
                  (Ok tt, mk_w (heap w) (upd (contents w) (file_id E f) (r_content r))
                            (trace w ++ [EWrite f (r_content r); EPrint (msg "reformatted")]))
                end
              else if f_check O then (Ok tt, emit (EPrint (msg "would reformat")) w)
              else (Ok tt, w)
            else (Ok tt, w) in
          match res with
          | Err e => (Err e, w)
          | Ok tt =>
            (* 221-228 *)
            let invalid := 0 <? r_invalid r in
            let w :=
              if invalid && (f_validate O || f_verbose O) then
                let w := emit (EPrint ("invalid queries in " ++ f ++ " (" ++ str_of_nat (r_invalid r)
                                       ++ " invalid SQL)")) w in
                if f_verbose O then
                  fold_left (fun w l => emit (EPrint ("L" ++ str_of_Z (fst l) ++ " - "
                                                      ++ join ", " (snd l))) w) (r_locs r) w
                else w
              else w in
            let '(i, w) := new_info (if changed then 1 else 0) (r_changed r)
                             (if invalid then 1 else 0) (r_invalid r) (Some seen) w in
            (Ok i, w)
          end
        end
      end.

  (** the two [except] clauses, file_handler.py:132-137 and 169-176 *)
  Definition report (f : str) (e : exn) (w : world) : world :=
    match e with
    | RecursionError => emit (EPrint ("could not analyse " ++ f)) w
    | _ => emit (EPrintExn f e) w
    end.

  (** file_handler.py:144-178 [analyse_dir] *)
  Fixpoint dir_loop (fs : list str) (r : info) (w : world) : info * world :=
    match fs with
    | [] => (r, w)
    | f :: fs =>
      if endswith ".py" f then
        match analyse_file f (i_seen r) w with
        | (Ok i, w) => let '(r, w) := info_update r i w in dir_loop fs r w
        | (Err e, w) => dir_loop fs r (report f e w)
        end
      else dir_loop fs r w
    end.
  Definition analyse_dir (d : str) (seen : nat) (w : world) : info * world :=
    let '(seen, w) := match get_set w seen with [] => new_set w | _ => (seen, w) end in
    let '(r, w) := new_info 0 0 0 0 (Some seen) w in
    dir_loop (walk E d) r w.

  (** file_handler.py:104-141 [handle_one_input] *)
  Definition handle_one_input (f : str) (seen : nat) (w : world) : info * world :=
    if isdir E f then analyse_dir f seen w
    else if isfile E f then
      match analyse_file f seen w with
      | (Ok i, w) => (i, w)
      | (Err e, w) => empty_info (report f e w)
      end
    else empty_info (emit (EPrint "Error: Invalid input") w).

  (** file_handler.py:405-416, 419-430: the summaries *)
  Definition format_summary (nfiles nsql : nat) (check : bool) : str :=
    let content := if check then "would be reformatted" else "reformatted" in
    if 0 <? nsql then
      str_of_nat nfiles ++ " file" ++ (if 1 <? nfiles then "s" else "") ++ " " ++ content
        ++ " (" ++ str_of_nat nsql ++ " changed SQL queries)."
    else "No file " ++ content ++ ".".
  Definition validation_summary (nfiles nsql : nat) : str :=
    if 0 <? nsql then
      str_of_nat nfiles ++ " file" ++ (if 1 <? nfiles then "s" else "")
        ++ " detected with invalid SQL (" ++ str_of_nat nsql ++ " invalid SQL quer"
        ++ (if 1 <? nsql then "ies" else "y") ++ ")."
    else "No invalid queries found.".

  (** file_handler.py:67-101 [handle_inputs]: final state and exit status *)
  Fixpoint inputs_loop (srcs : list str) (i : info) (w : world) : info * world :=
    match srcs with
    | [] => (i, w)
    | s :: r =>
      let '(one, w) := handle_one_input s (i_seen i) w in
      let '(i, w) := info_update i one w in
      inputs_loop r i w
    end.
  Definition handle_inputs (srcs : list str) (w : world) : nat * world :=
    let '(i, w) := empty_info w in
    let '(i, w) := inputs_loop srcs i w in
    let w := if f_format O || f_check O
             then emit (EPrint (format_summary (i_cfiles i) (i_csql i) (f_check O))) w else w in
    let w := if f_validate O
             then emit (EPrint (validation_summary (i_ifiles i) (i_isql i))) w else w in
    (if (f_check O && (0 <? i_csql i)) || (f_validate O && (0 <? i_isql i)) then 1 else 0, w).

  (** main.py:8-58 [_main] after argparse has read the command line: the two exclusive groups and
      the test that at least one option is given; argparse errors exit with status 2 *)
  Definition main (srcs : list str) (w : world) : nat * world :=
    if (f_format O && f_check O) || (f_validate O && f_verbose O)
       || negb (f_format O || f_check O || f_validate O || f_verbose O)
       || match srcs with [] => true | _ => false end
    then (2, w)
    else handle_inputs srcs w.
End Run.
