(** Python source tokens and CPython's [tokenize.untokenize] (Lib/tokenize.py, class Untokenizer,
    the five-tuple path; same algorithm in CPython 3.7 - 3.11, the versions setup.py:52-56 names).
    [tokenize.generate_tokens] is in PyTokenize; FileHandler takes its result as input. *)
From Verif Require Import PyStr.
Local Open Scope str_scope.
Local Open Scope list_scope.

(** Token types; ENDMARKER is the number 0, hence false as a condition. *)
Inductive tktype := TEnd | TString | TNewline | TIndent | TDedent | TComment | TNl | TOther.
Definition tktype_eqb (a b : tktype) : bool :=
  match a, b with
  | TEnd, TEnd | TString, TString | TNewline, TNewline | TIndent, TIndent | TDedent, TDedent
  | TComment, TComment | TNl, TNl | TOther, TOther => true
  | _, _ => false
  end.

(** A five-tuple without its last component [line], which nobody reads. *)
Record pytok := mk_tok { t_type : tktype; t_text : str; t_start : Z * Z; t_end : Z * Z }.

(** Untokenizer attributes and the local variables of [untokenize] *)
Record ustate := mk_u {
  u_out : list str; u_row : Z; u_col : Z; u_indents : list str (* innermost first *);
  u_startline : bool }.
Definition ustate0 : ustate := mk_u [] 1 0 [] false.

Definition repeat_str (k : Z) (s : str) : str := concat (repeat s (Z.to_nat k)).

(** [add_whitespace]: appends "\\\n" * row_offset and " " * col_offset *)
Definition add_whitespace (u : ustate) (start : Z * Z) : R ustate :=
  let '(row, col) := start in
  if ((row <? u_row u) || ((row =? u_row u) && (col <? u_col u)))%Z then Err ValueError
  else
    let row_offset := (row - u_row u)%Z in
    let '(out, pcol) :=
      if (row_offset =? 0)%Z then (u_out u, u_col u)
      else (u_out u ++ [repeat_str row_offset [92; 10]%N], 0%Z) in
    let col_offset := (col - pcol)%Z in
    let out := if (col_offset =? 0)%Z then out else out ++ [repeat_str col_offset " "] in
    Ok (mk_u out (u_row u) pcol (u_indents u) (u_startline u)).

(** One iteration of [untokenize]'s loop *)
Definition is_line_end (t : tktype) : bool := match t with TNewline | TNl => true | _ => false end.
Definition untok_step (u : ustate) (t : pytok) : R ustate :=
  match t_type t with
  | TIndent => Ok (mk_u (u_out u) (u_row u) (u_col u) (t_text t :: u_indents u) (u_startline u))
  | TDedent =>
    match u_indents u with
    | [] => Err IndexError
    | _ :: r => Ok (mk_u (u_out u) (fst (t_end t)) (snd (t_end t)) r (u_startline u))
    end
  | ty =>
    let u :=
      if is_line_end ty then mk_u (u_out u) (u_row u) (u_col u) (u_indents u) true
      else if u_startline u then
        match u_indents u with
        | ind :: _ =>
          if (Z.of_nat (length ind) <=? snd (t_start t))%Z
          then mk_u (u_out u ++ [ind]) (u_row u) (Z.of_nat (length ind)) (u_indents u) false
          else mk_u (u_out u) (u_row u) (u_col u) (u_indents u) false
        | [] => u
        end
      else u in
    u <- add_whitespace u (t_start t) ;;
    let '(er, ec) := t_end t in
    let '(er, ec) := if is_line_end ty then ((er + 1)%Z, 0%Z) else (er, ec) in
    Ok (mk_u (u_out u ++ [t_text t]) er ec (u_indents u) (u_startline u))
  end.
Fixpoint untok_loop (u : ustate) (ts : list pytok) : R ustate :=
  match ts with
  | [] => Ok u
  | t :: r =>
    if tktype_eqb (t_type t) TEnd then Ok u else u <- untok_step u t ;; untok_loop u r
  end.
Definition untokenize (ts : list pytok) : R str :=
  u <- untok_loop ustate0 ts ;; Ok (concat (u_out u)).
