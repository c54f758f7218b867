(** Vocabulary of the tokeniser properties. *)
From Verif Require Import PyStr Tokeniser.
Local Open Scope str_scope.
Local Open Scope list_scope.

Definition quote_free (s : str) : Prop := forall c, In c s -> ~ In c [39; 34; 96]%N.
Definition blank (c : N) : Prop := c = 32%N \/ c = 10%N \/ c = 9%N.
(** The separators *)
Definition separator (c : N) : Prop := In [c] [","; ";"; "("; ")"; "["; "]"; "+"; "-"; "*"; "/"; "="; "<"; ">"; "."].
(** Every backslash is followed by an ordinary character: no quote, blank or separator. *)
Definition tame (s : str) : Prop :=
  forall a b, s = a ++ 92%N :: b ->
  exists c b', b = c :: b' /\ ~ In c [39; 34; 96]%N /\ ~ blank c /\ ~ separator c.

(** [t] is [s] without some of its blanks *)
Inductive drops_blanks : str -> str -> Prop :=
| db_nil : drops_blanks [] []
| db_keep : forall c s t, drops_blanks s t -> drops_blanks (c :: s) (c :: t)
| db_drop : forall c s t, blank c -> drops_blanks s t -> drops_blanks (c :: s) t.

(** [s] consists of the given words with blanks around them, at least one between two words *)
Inductive layout : list str -> str -> Prop :=
| layout_end : forall b, (forall c, In c b -> blank c) -> layout [] b
| layout_word : forall w ws b s,
    w <> [] -> (forall c, In c w -> ~ blank c) -> (forall c, In c b -> blank c) ->
    (s = [] \/ exists c s', s = c :: s' /\ blank c) -> layout ws s -> layout (w :: ws) (b ++ w ++ s).

(** Numbers with dots, the two-character operators *)
Definition dotted_number (t : str) : Prop :=
  In 46%N t /\ (exists c, In c t /\ c <> 46%N) /\ forall c, In c t -> c = 46%N \/ (48 <= c <= 57)%N.
Definition two_char_operator (t : str) : Prop := In t ["<>"; "<="; ">="; "<<"; ">>"; "||"; "!="].

(** A text with its literals marked: quote-free text, then literals (quote, content, following text) *)
Definition marked := (str * list (N * str * str))%type.
Definition flat (m : marked) : str :=
  fst m ++ flat_map (fun l => let '(q, c, a) := l in [q] ++ c ++ [q] ++ a) (snd m).
(** all literals are closed, and no content contains a quote that delimits a literal of the text *)
Definition well_quoted (m : marked) : Prop :=
  quote_free (fst m)
  /\ Forall (fun l => let '(q, c, a) := l in
       In q [39; 34; 96]%N /\ quote_free a
       /\ Forall (fun l' => let '(q', _, _) := l' in ~ In q' c) (snd m)) (snd m).

(** The tokens of a piece of text; none for the empty piece *)
Definition tokens_of (s : str) : list str := match s with [] => [] | _ => fst (to_tokens s) end.
(** What a marked text should be tokenised to *)
Definition literal_tokens (l : N * str * str) : list str :=
  let '(q, c, a) := l in [[q]] ++ (match c with [] => [] | _ => [c] end) ++ [[q]] ++ tokens_of a.

(** [l'] is [l] with some adjacent pairs of tokens joined to operators *)
Inductive joins : list str -> list str -> Prop :=
| jo_nil : joins [] []
| jo_keep : forall t l l', joins l l' -> joins (t :: l) (t :: l')
| jo_empty : forall l l', joins l l' -> joins ([] :: l) l'
| jo_pair : forall a b l l', two_char_operator (a ++ b) -> joins l l' -> joins (a :: b :: l) ((a ++ b) :: l').
(** a token without any character of an operator *)
Definition no_operator (t : str) : Prop := t <> [] /\ forall c, In c t -> ~ In c [60; 62; 61; 124; 33]%N.

(** The same words between the same literals *)
Definition same_words (a b : str) : Prop := exists ws, layout ws a /\ layout ws b.
Definition same_but_layout (m m' : marked) : Prop :=
  same_words (fst m) (fst m')
  /\ Forall2 (fun l l' => let '(q, c, a) := l in let '(q', c', a') := l' in q = q' /\ c = c' /\ same_words a a')
       (snd m) (snd m').
