(** What it means that a list of Python tokens describes a file: independent of [untokenize]. *)
From Verif Require Import PyStr PyTokens.
Local Open Scope str_scope.
Local Open Scope list_scope.

(** The place after a text: row and column, from 1 and 0 at the start of the file *)
Fixpoint after (p : Z * Z) (s : str) : Z * Z :=
  match s with
  | [] => p
  | c :: r => after (if N.eqb c 10 then (fst p + 1, 0)%Z else (fst p, snd p + 1)%Z) r
  end.
Definition blanks (k : nat) : str := repeat 32%N k.
(** a backslash and the end of the line, [k] times *)
Definition continued (k : nat) : str := concat (repeat [92; 10]%N k).

(** Where in its line a token stands: after another token, first, or first after DEDENT *)
Inductive place := Within | First | Dedented.
Definition ends_line (t : pytok) : Prop := t_type t = TNewline \/ t_type t = TNl.

(** The white space in front of a token.  [ins]: the current indentations, innermost first.
    Within a line: blanks, perhaps after line continuations that directly follow the token before.
    In front of the first token of a line: the indentation of the block and blanks, or fewer characters
    than that, all of them blanks.  In a line without tokens: blanks. *)
Inductive gap (ins : list str) : place -> pytok -> str -> Prop :=
| gap_within : forall t k j, gap ins Within t (continued k ++ blanks j)
| gap_indented : forall p t j, p <> Within -> ~ ends_line t -> gap ins p t (hd [] ins ++ blanks j)
| gap_less : forall t j, ~ ends_line t -> j < length (hd [] ins) -> gap ins First t (blanks j)
| gap_empty_line : forall t j, ends_line t -> gap ins First t (blanks j).

(** [describes gap ins p at src ts]: [ts] are the tokens of the rest [src] of the file, which begins at [at],
    with white space as [gap] allows. *)
Section Describes.
Variable gap : list str -> place -> pytok -> str -> Prop.
Inductive describes : list str -> place -> Z * Z -> str -> list pytok -> Prop :=
| D_nil : forall ins p a, describes ins p a [] []
| D_end : forall ins p a t r, t_type t = TEnd -> describes ins p a [] (t :: r)
| D_indent : forall ins a src t r, t_type t = TIndent ->
    has 10 (t_text t) = false ->
    describes (t_text t :: ins) First a src r -> describes ins First a src (t :: r)
| D_dedent : forall i ins p a src t r, t_type t = TDedent -> p <> Within ->
    fst (t_end t) = fst a -> (ins = [] -> snd (t_end t) = 0%Z) ->
    describes ins Dedented a src r -> describes (i :: ins) p a src (t :: r)
| D_line : forall ins p a g t src r, ends_line t ->
    gap ins p t g -> t_start t = after a g -> fst (t_end t) = fst (t_start t) ->
    describes ins First (fst (t_start t) + 1, 0)%Z src r ->
    describes ins p a (g ++ t_text t ++ src) (t :: r)
| D_token : forall ins p a g t src r, (t_type t = TString \/ t_type t = TComment \/ t_type t = TOther) ->
    gap ins p t g -> t_start t = after a g -> t_end t = after (t_start t) (t_text t) ->
    describes ins Within (t_end t) src r ->
    describes ins p a (g ++ t_text t ++ src) (t :: r).
End Describes.
(** The tokens of a file whose white space is as in [gap] *)
Definition tokens_of_file (src : str) (ts : list pytok) : Prop := describes gap [] Within (1, 0)%Z src ts.
(** The same for the white space of Python: blanks, tabs, form feeds, continued lines *)
Inductive white : str -> Prop :=
| white_nil : white []
| white_cons : forall c s, In c [32; 9; 12]%N -> white s -> white (c :: s)
| white_continued : forall s, white s -> white (92 :: 10 :: s)%N.
Definition tokens_of_any_file (src : str) (ts : list pytok) : Prop := describes (fun _ _ _ g => white g) [] Within (1, 0)%Z src ts.
