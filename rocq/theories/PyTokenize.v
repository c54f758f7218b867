(** Python's tokenizer: [tokenize.generate_tokens] of CPython 3.11 (Lib/tokenize.py, [_tokenize], a pure
    Python function; 3.8 - 3.10 are the same up to the list of operators).  It is not part of the project:
    FileHandler takes the tokens of a file as a parameter.  Here they are computed from the text of the
    file, to close the gap between two runs over a file.

    Differences in form.  The original goes through the file line by line and matches regular
    expressions at a position of the line; here the rest of the file takes the place of line and
    position.  None of the expressions matches beyond the end of a line except those for strings, which
    are written as functions that go on in the next line as the original does ([contstr]).  Regular
    expressions for numbers are transcribed as they stand; the others are simple enough to be written
    as functions.  Which characters beyond ASCII belong to a word (\w) is the parameter [word].
    TokenizeTests compares the result with that of CPython on files of all kinds. *)
From Verif Require Import PyStr PyTokens.
Local Open Scope str_scope.
Local Open Scope list_scope.

(** ** Regular expressions: the remainders of all matches, the preferred one first *)
Inductive re := Cls (p : N -> bool) | Eps | Cat (a b : re) | Alt (a b : re) | Star (a : re).
Fixpoint star (f : str -> list str) (n : nat) (s : str) : list str :=
  match n with
  | O => [s]
  | S n => flat_map (star f n) (filter (fun r => length r <? length s) (f s)) ++ [s]
  end.
Fixpoint rematch (r : re) (s : str) : list str :=
  match r with
  | Cls p => match s with c :: s => if p c then [s] else [] | [] => [] end
  | Eps => [s]
  | Cat a b => flat_map (rematch b) (rematch a s)
  | Alt a b => rematch a s ++ rematch b s
  | Star a => star (rematch a) (length s) s
  end.
Definition chr (c : N) : re := Cls (N.eqb c).
Definition one_of (l : list N) : re := Cls (fun c => existsb (N.eqb c) l).
Definition maybe (r : re) : re := Alt r Eps.
Definition plus (r : re) : re := Cat r (Star r).
(** a digit, with an underscore in front of it or not *)
Definition more (d : re) : re := Cat (maybe (chr 95)) d.

Definition digit : re := Cls is_digit_c.
Definition hex_c (c : N) : bool := is_digit_c c || ((97 <=? c) && (c <=? 102))%N || ((65 <=? c) && (c <=? 70))%N.
Definition Hexnumber : re := Cat (chr 48) (Cat (one_of [120; 88]%N) (plus (more (Cls hex_c)))).
Definition Binnumber : re := Cat (chr 48) (Cat (one_of [98; 66]%N) (plus (more (one_of [48; 49]%N)))).
Definition Octnumber : re := Cat (chr 48) (Cat (one_of [111; 79]%N) (plus (more (Cls (fun c => (48 <=? c) && (c <=? 55))%N)))).
Definition Decnumber : re :=
  Alt (Cat (chr 48) (Star (more (chr 48)))) (Cat (Cls (fun c => is_digit_c c && negb (N.eqb c 48))) (Star (more digit))).
Definition Intnumber : re := Alt Hexnumber (Alt Binnumber (Alt Octnumber Decnumber)).
Definition digits : re := Cat digit (Star (more digit)).
Definition Exponent : re := Cat (one_of [101; 69]%N) (Cat (maybe (one_of [45; 43]%N)) digits).
Definition Pointfloat : re :=
  Cat (Alt (Cat digits (Cat (chr 46) (maybe digits))) (Cat (chr 46) digits)) (maybe Exponent).
Definition Expfloat : re := Cat digits Exponent.
Definition Floatnumber : re := Alt Pointfloat Expfloat.
Definition Imagnumber : re := Alt (Cat digits (one_of [106; 74]%N)) (Cat Floatnumber (one_of [106; 74]%N)).
Definition Number : re := Alt Imagnumber (Alt Floatnumber Intnumber).

(** ** The other patterns: the text matched and what follows it *)
Fixpoint span (p : N -> bool) (s : str) : str * str :=
  match s with
  | c :: r => if p c then let '(a, b) := span p r in (c :: a, b) else ([], s)
  | [] => ([], [])
  end.
Definition blank_c (c : N) : bool := existsb (N.eqb c) [32; 12; 9]%N.
(** [\r?\n] *)
Definition newline (s : str) : option (str * str) :=
  match s with
  | c :: r =>
    if N.eqb c 10 then Some ([10%N], r)
    else if N.eqb c 13 then match r with d :: r => if N.eqb d 10 then Some ([13; 10]%N, r) else None | [] => None end
    else None
  | [] => None
  end.
(** [EXACT_TOKEN_TYPES] in reverse order *)
Definition OPERATORS : list str :=
  ["~"; "}"; "|="; "|"; "{"; "^="; "^"; "]"; "["; "@="; "@"; ">>="; ">>"; ">="; ">"; "=="; "="; "<="; "<<="; "<<"; "<";
   ";"; ":="; ":"; "/="; "//="; "//"; "/"; "..."; "."; "->"; "-="; "-"; ","; "+="; "+"; "*="; "**="; "**"; "*"; ")"; "(";
   "&="; "&"; "%="; "%"; "!="].
Definition operator (s : str) : option (str * str) :=
  match find (fun o => startswith o s) OPERATORS with
  | Some o => Some (o, skipn (length o) s)
  | None => None
  end.
Definition number (s : str) : option (str * str) :=
  match rematch Number s with
  | r :: _ => Some (firstn (length s - length r) s, r)
  | [] => None
  end.
(** Prefix and quote that begin a string *)
Definition STR_PREFIXES : list str := [""; "r"; "u"; "f"; "b"; "fr"; "rf"; "br"; "rb"].
Definition quote_c (c : N) : bool := existsb (N.eqb c) [39; 34]%N.
Definition opening (s : str) : option (str * N * str) :=
  let '(p, r) := span (fun c => negb (quote_c c)) (firstn 3 s) in
  match r with
  | q :: _ => if mem (lower p) STR_PREFIXES then Some (p, q, skipn (S (length p)) s) else None
  | [] => None
  end.
Definition put (a : str) (o : option (str * str)) : option (str * str) :=
  match o with Some (b, r) => Some (a ++ b, r) | None => None end.
(** [ContStr] after the opening quote: up to the closing quote or a backslash at the end of the line; a
    backslash protects the next character *)
Fixpoint one_line (q : N) (s : str) : option (str * str) :=
  match s with
  | [] => None
  | c :: r =>
    if N.eqb c q then Some ([c], r)
    else if N.eqb c 10 then None
    else if N.eqb c 92 then
      match newline r with
      | Some (e, r) => Some (c :: e, r)
      | None => match r with d :: r => put [c; d] (one_line q r) | [] => None end
      end
    else put [c] (one_line q r)
  end.
(** [Single] and [Double], in one line: the rest of a string up to its closing quote *)
Fixpoint tail1 (q : N) (line : str) : option (str * str) :=
  match line with
  | [] => None
  | c :: r =>
    if N.eqb c q then Some ([c], r)
    else if N.eqb c 92 then
      match r with d :: r => if N.eqb d 10 then None else put [c; d] (tail1 q r) | [] => None end
    else put [c] (tail1 q r)
  end.
(** [Single3] and [Double3]: up to three closing quotes; beyond the line if [far] *)
Fixpoint tail3 (far : bool) (q : N) (s : str) : option (str * str) :=
  match s with
  | [] => None
  | c :: r =>
    if N.eqb c q && startswith [q; q] r then Some ([q; q; q], skipn 2 r)
    else if N.eqb c 92 then
      match r with d :: r => if negb far && N.eqb d 10 then None else put [c; d] (tail3 far q r) | [] => None end
    else put [c] (tail3 far q r)
  end.
(** A line, with its end, and what follows it *)
Fixpoint cut_line (s : str) : str * str :=
  match s with
  | [] => ([], [])
  | c :: r => if N.eqb c 10 then ([c], r) else let '(a, b) := cut_line r in (c :: a, b)
  end.

(** ** The loop *)

(** Is the token an ERRORTOKEN?  (Its type is one of those nobody asks for.) *)
Definition ptok := (bool * pytok)%type.
Definition tok (k : tktype) (s : str) (a b : Z * Z) : ptok := (false, mk_tok k s a b).
Definition error_tok (s : str) (a b : Z * Z) : ptok := (true, mk_tok TOther s a b).

(** Place (row and column), [parenlev], [indents] (innermost first, without the outermost 0),
    [needcont] when no string is open. *)
Record lstate := mk_l { l_pos : Z * Z; l_par : Z; l_ins : list Z; l_need : bool }.
(** At the start of a line ([continued] or not) or within a line *)
Inductive mode := AtLine (continued : bool) | Inline.
Inductive outcome := Done (ts : list ptok) (e : option exn) | More (ts : list ptok) (l : lstate) (m : mode) (s : str).

(** The place after a text *)
Definition step_pos (p : Z * Z) (c : N) : Z * Z := if N.eqb c 10 then (fst p + 1, 0)%Z else (fst p, snd p + 1)%Z.
Definition move (p : Z * Z) (s : str) : Z * Z := fold_left step_pos s p.
Definition right (p : Z * Z) (s : str) : Z * Z := (fst p, snd p + Z.of_nat (length s))%Z.
Definition below (p : Z * Z) : Z * Z := (fst p + 1, 0)%Z.

Definition TokenError : exn := OtherError "TokenError".
Definition IndentationError : exn := OtherError "IndentationError".

(** [column]: the width of the white space at the start of a line *)
Definition width (ws : str) : Z :=
  fold_left (fun col c => if N.eqb c 32 then col + 1 else if N.eqb c 9 then (col / 8 + 1) * 8 else 0)%Z ws 0%Z.
Definition top (ins : list Z) : Z := hd 0%Z ins.
Fixpoint drop_ins (col : Z) (ins : list Z) : nat * list Z :=
  match ins with
  | i :: r => if (col <? i)%Z then let '(k, r) := drop_ins col r in (S k, r) else (0, ins)
  | [] => (0, [])
  end.

(** A string that goes on after this line ([contstr], [needcont]): line by line.  [None]: the file ends. *)
Inductive cont := Closed (text rest : str) | Broken (text rest : str).
Fixpoint cont_lines (fuel : nat) (ends : str -> option (str * str)) (acc s : str) : option cont :=
  match fuel with
  | O => None
  | S fuel =>
    let '(line, rest) := cut_line s in
    match line with
    | [] => None
    | _ =>
      match ends line with
      | Some (a, b) => Some (Closed (acc ++ a) (b ++ rest))
      | None =>
        if endswith [92; 10]%N line || endswith [92; 13; 10]%N line
        then cont_lines fuel ends (acc ++ line) rest
        else Some (Broken (acc ++ line) rest)
      end
    end
  end.

Section Tokenize.
Variable word : N -> bool.                  (* \w for the characters beyond ASCII *)
Definition word_c (c : N) : bool :=
  is_digit_c c || is_upper_c c || is_lower_c c || N.eqb c 95 || ((128 <=? c)%N && word c).

(** What [PseudoToken] finds, after the white space *)
Inductive found :=
| FCont (s : str)                           (* backslash, end of line *)
| FTok (k : tktype) (text s : str)
| FNewline (text s : str)
| FTriple (p : str) (q : N) (s : str)       (* opening of a string in three quotes *)
| FStr (p : str) (q : N) (body s : str)     (* string in one quote, or its first line *)
| FNone.
Definition name (s : str) : option (str * str) :=
  match span word_c s with ([], _) => None | (a, b) => Some (a, b) end.
Definition pseudo (s : str) : found :=
  match (match s with c :: r => if N.eqb c 92 then newline r else None | [] => None end) with
  | Some (_, r) => FCont r
  | None =>
    if startswith [35%N] s then let '(a, b) := span (fun c => negb (N.eqb c 13 || N.eqb c 10)) s in FTok TComment a b
    else
      let o := opening s in
      match o with
      | Some (p, q, r) =>
        if startswith [q; q] r then FTriple p q (skipn 2 r)
        else match one_line q r with
             | Some (a, b) => FStr p q a b
             | None => match name s with Some (a, b) => FTok TOther a b | None => FNone end
             end
      | None =>
        match number s with
        | Some (a, b) => FTok TOther a b
        | None =>
          match newline s with
          | Some (a, b) => FNewline a b
          | None =>
            match operator s with
            | Some (a, b) => FTok TOther a b
            | None => match name s with Some (a, b) => FTok TOther a b | None => FNone end
            end
          end
        end
      end
  end.

Definition open_par (text : str) : Z :=
  match text with
  | c :: _ => if existsb (N.eqb c) [40; 91; 123]%N then 1%Z else if existsb (N.eqb c) [41; 93; 125]%N then (-1)%Z else 0%Z
  | [] => 0%Z
  end.

(** The end of the file.  [whole]: the text of the file; [eof]: all lines have been read *)
Fixpoint last_line (s : str) : str :=
  match cut_line s with
  | (l, []) => l
  | _ => match s with _ :: r => last_line r | [] => [] end
  end.
Definition finish (whole : str) (eof : bool) (l : lstate) : outcome :=
  let ll := last_line whole in
  let row := fst (l_pos l) in
  let extra :=
    if eof && negb (match ll with [] => true | _ => false end)
       && negb (endswith [10%N] ll || endswith [13%N] ll) && negb (startswith [35%N] (dropwhile is_space_c ll))
    then [tok TNewline [] (row - 1, Z.of_nat (length ll))%Z (row - 1, Z.of_nat (length ll) + 1)%Z] else [] in
  Done (extra ++ map (fun _ => tok TDedent [] (row, 0)%Z (row, 0)%Z) (l_ins l) ++ [tok TEnd [] (row, 0)%Z (row, 0)%Z]) None.

Definition at_line (whole : str) (continued : bool) (l : lstate) (s : str) : outcome :=
  let p := l_pos l in
  if (l_par l =? 0)%Z && negb continued then
    match s with
    | [] => finish whole true l
    | _ =>
      let '(ws, r) := span blank_c s in
      match r with
      | [] => finish whole false l
      | c :: _ =>
        let p1 := right p ws in
        if existsb (N.eqb c) [35; 13; 10]%N then
          (* a line without statement *)
          let '(line, rest) := cut_line r in
          if N.eqb c 35 then
            let text := rev (dropwhile (fun c => N.eqb c 13 || N.eqb c 10) (rev line)) in
            let e := skipn (length text) line in
            More [tok TComment text p1 (right p1 text); tok TNl e (right p1 text) (right p1 line)]
              (mk_l (below p) (l_par l) (l_ins l) (l_need l)) (AtLine false) rest
          else
            More [tok TNl line p1 (right p1 line)] (mk_l (below p) (l_par l) (l_ins l) (l_need l)) (AtLine false) rest
        else
          let col := width ws in
          if (top (l_ins l) <? col)%Z then
            More [tok TIndent ws p p1] (mk_l p1 (l_par l) (col :: l_ins l) (l_need l)) Inline r
          else if (col <? top (l_ins l))%Z && negb (existsb (Z.eqb col) (l_ins l ++ [0%Z])) then Done [] (Some IndentationError)
          else
            let '(k, ins) := drop_ins col (l_ins l) in
            More (repeat (tok TDedent [] p1 p1) k) (mk_l p1 (l_par l) ins (l_need l)) Inline r
      end
    end
  else
    match s with
    | [] => Done [] (Some TokenError)
    | _ => More [] l Inline s
    end.

(** a string that may go on in the next lines; [a]: its place, [head]: its text so far *)
Definition go_on (l : lstate) (a : Z * Z) (head : str) (ends : str -> option (str * str)) (s : str) : outcome :=
  match cont_lines (S (length s)) ends head s with
  | None => Done [] (Some TokenError)
  | Some (Closed text r) => More [tok TString text a (move a text)] (mk_l (move a text) (l_par l) (l_ins l) false) Inline r
  | Some (Broken text r) =>
    let e := move a text in   (* the start of the next line, or the end of the file *)
    let row := if endswith [10%N] text then (fst e - 1)%Z else fst e in
    let line := last_line text in
    More [error_tok text a (row, Z.of_nat (length line))] (mk_l (row + 1, 0)%Z (l_par l) (l_ins l) true) (AtLine false) r
  end.

Definition inline (l : lstate) (s : str) : outcome :=
  let p := l_pos l in
  let '(ws, r) := span blank_c s in
  let a := right p ws in
  let at_ (b : Z * Z) := mk_l b (l_par l) (l_ins l) (l_need l) in
  match r with
  | [] => More [] (at_ (below p)) (AtLine false) []
  | _ =>
    match pseudo r with
    | FCont r => More [] (at_ (below p)) (AtLine true) r
    | FTok TComment text r => More [tok TComment text a (right a text)] (at_ (right a text)) Inline r
    | FTok k text r =>
      More [tok k text a (right a text)] (mk_l (right a text) (l_par l + open_par text)%Z (l_ins l) (l_need l)) Inline r
    | FNewline text r =>
      More [tok (if (0 <? l_par l)%Z then TNl else TNewline) text a (right a text)] (at_ (below p)) (AtLine false) r
    | FTriple pre q r =>
      let head := pre ++ [q; q; q] in
      if l_need l then
        let '(line, rest) := cut_line r in
        match tail3 false q line with
        | Some (x, y) => More [tok TString (head ++ x) a (right a (head ++ x))] (at_ (right a (head ++ x))) Inline (y ++ rest)
        | None => go_on l a (head ++ line) (tail3 false q) rest
        end
      else
        match tail3 true q r with
        | Some (x, y) => More [tok TString (head ++ x) a (move a (head ++ x))] (at_ (move a (head ++ x))) Inline y
        | None => Done [] (Some TokenError)
        end
    | FStr pre q body r =>
      let text := pre ++ [q] ++ body in
      if endswith [10%N] body then go_on l a text (tail1 q) r
      else More [tok TString text a (right a text)] (at_ (right a text)) Inline r
    | FNone =>
      match s with
      | c :: r => More [error_tok [c] p (right p [c])] (at_ (right p [c])) Inline r
      | [] => Done [] None
      end
    end
  end.

Definition step (whole : str) (l : lstate) (m : mode) (s : str) : outcome :=
  match m with AtLine c => at_line whole c l s | Inline => inline l s end.
Fixpoint run (whole : str) (fuel : nat) (l : lstate) (m : mode) (s : str) : list ptok * option exn :=
  match fuel with
  | O => ([], Some OutOfFuel)
  | S fuel =>
    match step whole l m s with
    | Done ts e => (ts, e)
    | More ts l m s => let '(us, e) := run whole fuel l m s in (ts ++ us, e)
    end
  end.
Definition lstate0 : lstate := mk_l (1, 0)%Z 0%Z [] false.
Definition tokenize (s : str) : list ptok * option exn := run s (3 * length s + 3) lstate0 (AtLine false) s.
Definition generate_tokens (s : str) : list pytok * option exn := let '(ts, e) := tokenize s in (map snd ts, e).
End Tokenize.
