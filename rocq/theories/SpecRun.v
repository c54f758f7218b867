(** A whole run, described without the program's bookkeeping: the files met, in order, each absolute
    path once, each analysed on the contents of that moment. *)
From Verif Require Import PyStr Tokeniser Ast Parser Render Validate Api PyTokens FileHandler SpecVal SpecFile.
Local Open Scope str_scope.
Local Open Scope list_scope.

Section Run.
  Variable E : env.
  Variable O : options.

  (** The files an input stands for; [None]: neither file nor directory *)
  Definition files_of (src : str) : list (option str) :=
    if isdir E src then map Some (filter (endswith ".py") (walk E src))
    else if isfile E src then [Some src]
    else [None].
  Definition files (srcs : list str) : list (option str) := flat_map files_of srcs.

  (** Outcome for one file on given contents: an exception, perhaps after leaving a half-written file,
      or numbers of changed / invalid queries with the new content *)
  Inductive outcome := Failed (e : exn) (half : option str) | Done (r : cresult).
  Definition result (f : str) (c : N -> str) : R cresult :=
    let '(ts, eos) := gen_tokens E (c (file_id E f)) in
    compute_file_content (set_order E) (f_format O || f_check O) (f_validate O || f_verbose O) ts eos.
  Definition analysed (f : str) (c : N -> str) : outcome :=
    match open_error E f, result f c with
    | Some e, _ => Failed e None
    | None, Err e => Failed e None
    | None, Ok r =>
      match (0 <? r_changed r) && f_format O, write_error E f with
      | true, Some (e, half) => Failed e half
      | _, _ => Done r
      end
    end.
  (** The contents afterwards *)
  Definition after (f : str) (c : N -> str) (o : outcome) : N -> str :=
    match o with
    | Failed _ None => c
    | Failed _ (Some x) => upd c (file_id E f) x
    | Done r => if (0 <? r_changed r) && f_format O then upd c (file_id E f) (r_content r) else c
    end.

  (** The log of a run *)
  Inductive step := Invalid | Did (f : str) (before : N -> str) (o : outcome).
  Fixpoint log (seen : list str) (c : N -> str) (l : list (option str)) : list step :=
    match l with
    | [] => []
    | None :: r => Invalid :: log seen c r
    | Some f :: r =>
      if mem (abspath E f) seen then log seen c r
      else let o := analysed f c in Did f c o :: log (abspath E f :: seen) (after f c o) r
    end.
  Fixpoint contents_after (c : N -> str) (l : list step) : N -> str :=
    match l with
    | [] => c
    | Invalid :: r => contents_after c r
    | Did f b o :: r => contents_after (after f b o) r
    end.

  (** What each step shows *)
  Definition message (what f : str) (n : nat) : str :=
    what ++ " " ++ f ++ " (" ++ str_of_nat n ++ " changed SQL)".
  Definition events (s : step) : list event :=
    match s with
    | Invalid => [EPrint "Error: Invalid input"]
    | Did f _ (Failed e half) =>
      ERead f :: match half with Some x => [EWrite f x] | None => [] end
      ++ [match e with RecursionError => EPrint ("could not analyse " ++ f) | _ => EPrintExn f e end]
    | Did f _ (Done r) =>
      ERead f ::
      (if 0 <? r_changed r then
         if f_format O then [EWrite f (r_content r); EPrint (message "reformatted" f (r_changed r))]
         else if f_check O then [EPrint (message "would reformat" f (r_changed r))] else []
       else [])
      ++ (if (0 <? r_invalid r) && (f_validate O || f_verbose O) then
            EPrint ("invalid queries in " ++ f ++ " (" ++ str_of_nat (r_invalid r) ++ " invalid SQL)")
            :: (if f_verbose O
                then map (fun l => EPrint ("L" ++ str_of_Z (fst l) ++ " - " ++ join ", " (snd l))) (r_locs r)
                else [])
          else [])
    end.

  (** Sums over the log *)
  Definition sum (g : cresult -> nat) (l : list step) : nat :=
    list_sum (map (fun s => match s with Did _ _ (Done r) => g r | _ => 0 end) l).
  Definition changed_files := sum (fun r => if 0 <? r_changed r then 1 else 0).
  Definition changed_queries := sum r_changed.
  Definition invalid_files := sum (fun r => if 0 <? r_invalid r then 1 else 0).
  Definition invalid_queries := sum r_invalid.
  Definition summary (l : list step) : list event :=
    (if f_format O || f_check O
     then [EPrint (format_summary (changed_files l) (changed_queries l) (f_check O))] else [])
    ++ (if f_validate O
        then [EPrint (validation_summary (invalid_files l) (invalid_queries l))] else []).
End Run.

(** The state before a run *)
Definition start (c : N -> str) : world := mk_w [] c [].
(** contents after the writes of a trace *)
Fixpoint replay (E : env) (c : N -> str) (t : list event) : N -> str :=
  match t with
  | [] => c
  | EWrite f x :: r => replay E (upd c (file_id E f) x) r
  | _ :: r => replay E c r
  end.
(** The results of the files read in a trace, each computed on the contents of that moment *)
Fixpoint results (E : env) (O : options) (c : N -> str) (t : list event) : list cresult :=
  match t with
  | [] => []
  | ERead f :: r => match analysed E O f c with Done x => [x] | Failed _ _ => [] end ++ results E O c r
  | EWrite f x :: r => results E O (upd c (file_id E f) x) r
  | _ :: r => results E O c r
  end.
(** The files read, and written, in a trace *)
Definition reads (t : list event) : list str :=
  flat_map (fun e => match e with ERead f => [f] | _ => [] end) t.
Definition writes (t : list event) : list str :=
  flat_map (fun e => match e with EWrite f _ => [f] | _ => [] end) t.
(** The line about a failed file *)
Definition complaint (f : str) (e : exn) : event :=
  match e with RecursionError => EPrint ("could not analyse " ++ f) | _ => EPrintExn f e end.

(** Two environments that differ at most in what directories and files there are *)
Definition same_files (E E' : env) : Prop :=
  abspath E' = abspath E /\ file_id E' = file_id E /\ open_error E' = open_error E
  /\ gen_tokens E' = gen_tokens E /\ write_error E' = write_error E /\ set_order E' = set_order E.

(** A file content whose strings are formatted stably and whose new form is read back as the tokens
    that were written *)
Definition stable_literal (t : pytok) : Prop :=
  sql_string t = true -> forall v q, handle_sql_string (t_text t) = Ok (v, q) ->
  (exists q', handle_sql_string v = Ok (v, q'))
  /\ contains "nosqlformat" v = contains "nosqlformat" (t_text t).
Definition stable_content (E : env) (val : bool) (s : str) : Prop :=
  forall ts eos st r, gen_tokens E s = (ts, eos) ->
    compute_tokens (set_order E) true val ts eos = Ok st ->
    compute_file_content (set_order E) true val ts eos = Ok r -> 0 < r_changed r ->
    (forall t, In t ts -> stable_literal t)
    /\ exists ts2, gen_tokens E (r_content r) = (ts2, None)
       /\ map (fun t => (t_type t, t_text t)) ts2 = map (fun t => (t_type t, t_text t)) (c_tokens st).
