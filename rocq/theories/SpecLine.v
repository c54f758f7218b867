(** Vocabulary of C56: where in a file a literal stands. *)
From Verif Require Import PyStr PyTokens.
Local Open Scope str_scope.
Local Open Scope list_scope.

(** The number of the line on which a text ends, counted from 1 *)
Definition line_after (pre : str) : Z := (1 + Z.of_nat (count_occ N.eq_dec pre 10%N))%Z.
(** [lit] stands in [src] and begins on line [line] *)
Definition stands (src lit : str) (line : Z) : Prop :=
  exists pre post, src = pre ++ lit ++ post /\ line = line_after pre.
(** The string tokens of a list stand in [src] one behind the other, each where its position says *)
Inductive located : str -> str -> list pytok -> Prop :=
| located_nil : forall pre s, located pre s []
| located_other : forall pre s t ts, t_type t <> TString -> located pre s ts -> located pre s (t :: ts)
| located_string : forall pre g s t ts, fst (t_start t) = line_after (pre ++ g) ->
    located (pre ++ g ++ t_text t) s ts -> located pre (g ++ t_text t ++ s) (t :: ts).
