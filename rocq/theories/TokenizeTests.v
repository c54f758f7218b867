(** GENERATED by tools/gen_tokenize_tests.py: what CPython 3.11's tokenize gives for 201 texts.  Tests of the
    model, not proofs of properties. *)
From Verif Require Import PyStr PyTokens PyTokenize.
Local Open Scope list_scope.

Definition pair_eqb (a b : Z * Z) : bool := ((fst a =? fst b) && (snd a =? snd b))%Z.
Definition same (a b : ptok) : bool :=
  Bool.eqb (fst a) (fst b) && tktype_eqb (t_type (snd a)) (t_type (snd b)) && str_eqb (t_text (snd a)) (t_text (snd b))
  && pair_eqb (t_start (snd a)) (t_start (snd b)) && pair_eqb (t_end (snd a)) (t_end (snd b)).
Fixpoint all_same (a b : list ptok) : bool :=
  match a, b with [], [] => true | x :: a, y :: b => same x y && all_same a b | _, _ => false end.
Definition same_end (a b : option exn) : bool :=
  match a, b with None, None => true | Some (OtherError x), Some (OtherError y) => str_eqb x y | _, _ => false end.
(** The euro sign is the only character of the texts beyond ASCII that is not part of a word *)
Definition ok (c : str * list ptok * option exn) : bool :=
  let '(s, ts, e) := c in
  let '(us, f) := tokenize (fun c => negb (N.eqb c 8364)) s in all_same us ts && same_end f e.
Definition cases : list (str * list ptok * option exn) := [
  ([], [(false, mk_tok TEnd [] (1,0)%Z (1,0)%Z)], None);
  ([10]%N, [(false, mk_tok TNl [10]%N (1,0)%Z (1,1)%Z); (false, mk_tok TEnd [] (2,0)%Z (2,0)%Z)], None);
  ([120]%N, [(false, mk_tok TOther [120]%N (1,0)%Z (1,1)%Z); (false, mk_tok TNewline [] (1,1)%Z (1,2)%Z); (false, mk_tok TEnd [] (2,0)%Z (2,0)%Z)], None);
  ([120;32;61;32;49;10]%N, [(false, mk_tok TOther [120]%N (1,0)%Z (1,1)%Z); (false, mk_tok TOther [61]%N (1,2)%Z (1,3)%Z); (false, mk_tok TOther [49]%N (1,4)%Z (1,5)%Z); (false, mk_tok TNewline [10]%N (1,5)%Z (1,6)%Z); (false, mk_tok TEnd [] (2,0)%Z (2,0)%Z)], None);
  ([35;32;99]%N, [(false, mk_tok TComment [35;32;99]%N (1,0)%Z (1,3)%Z); (false, mk_tok TNl [] (1,3)%Z (1,3)%Z); (false, mk_tok TEnd [] (2,0)%Z (2,0)%Z)], None);
  ([35;32;99;10]%N, [(false, mk_tok TComment [35;32;99]%N (1,0)%Z (1,3)%Z); (false, mk_tok TNl [10]%N (1,3)%Z (1,4)%Z); (false, mk_tok TEnd [] (2,0)%Z (2,0)%Z)], None);
  ([32;32;35;32;99;10]%N, [(false, mk_tok TComment [35;32;99]%N (1,2)%Z (1,5)%Z); (false, mk_tok TNl [10]%N (1,5)%Z (1,6)%Z); (false, mk_tok TEnd [] (2,0)%Z (2,0)%Z)], None);
  ([105;102;32;120;58;10;32;32;32;32;121;10;122;10]%N, [(false, mk_tok TOther [105;102]%N (1,0)%Z (1,2)%Z); (false, mk_tok TOther [120]%N (1,3)%Z (1,4)%Z); (false, mk_tok TOther [58]%N (1,4)%Z (1,5)%Z); (false, mk_tok TNewline [10]%N (1,5)%Z (1,6)%Z); (false, mk_tok TIndent [32;32;32;32]%N (2,0)%Z (2,4)%Z); (false, mk_tok TOther [121]%N (2,4)%Z (2,5)%Z); (false, mk_tok TNewline [10]%N (2,5)%Z (2,6)%Z); (false, mk_tok TDedent [] (3,0)%Z (3,0)%Z); (false, mk_tok TOther [122]%N (3,0)%Z (3,1)%Z); (false, mk_tok TNewline [10]%N (3,1)%Z (3,2)%Z); (false, mk_tok TEnd [] (4,0)%Z (4,0)%Z)], None);
  ([105;102;32;120;58;10;32;32;32;32;121;10;32;32;122;10]%N, [(false, mk_tok TOther [105;102]%N (1,0)%Z (1,2)%Z); (false, mk_tok TOther [120]%N (1,3)%Z (1,4)%Z); (false, mk_tok TOther [58]%N (1,4)%Z (1,5)%Z); (false, mk_tok TNewline [10]%N (1,5)%Z (1,6)%Z); (false, mk_tok TIndent [32;32;32;32]%N (2,0)%Z (2,4)%Z); (false, mk_tok TOther [121]%N (2,4)%Z (2,5)%Z); (false, mk_tok TNewline [10]%N (2,5)%Z (2,6)%Z)], (Some IndentationError));
  ([102;40;10;32;32;97;44;10;32;32;98;41;10]%N, [(false, mk_tok TOther [102]%N (1,0)%Z (1,1)%Z); (false, mk_tok TOther [40]%N (1,1)%Z (1,2)%Z); (false, mk_tok TNl [10]%N (1,2)%Z (1,3)%Z); (false, mk_tok TOther [97]%N (2,2)%Z (2,3)%Z); (false, mk_tok TOther [44]%N (2,3)%Z (2,4)%Z); (false, mk_tok TNl [10]%N (2,4)%Z (2,5)%Z); (false, mk_tok TOther [98]%N (3,2)%Z (3,3)%Z); (false, mk_tok TOther [41]%N (3,3)%Z (3,4)%Z); (false, mk_tok TNewline [10]%N (3,4)%Z (3,5)%Z); (false, mk_tok TEnd [] (4,0)%Z (4,0)%Z)], None);
  ([120;32;61;32;40]%N, [(false, mk_tok TOther [120]%N (1,0)%Z (1,1)%Z); (false, mk_tok TOther [61]%N (1,2)%Z (1,3)%Z); (false, mk_tok TOther [40]%N (1,4)%Z (1,5)%Z)], (Some TokenError));
  ([120;32;61;32;39;39;39;97;10;98;39;39;39;10]%N, [(false, mk_tok TOther [120]%N (1,0)%Z (1,1)%Z); (false, mk_tok TOther [61]%N (1,2)%Z (1,3)%Z); (false, mk_tok TString [39;39;39;97;10;98;39;39;39]%N (1,4)%Z (2,4)%Z); (false, mk_tok TNewline [10]%N (2,4)%Z (2,5)%Z); (false, mk_tok TEnd [] (3,0)%Z (3,0)%Z)], None);
  ([120;32;61;32;39;39;39;97;10;98]%N, [(false, mk_tok TOther [120]%N (1,0)%Z (1,1)%Z); (false, mk_tok TOther [61]%N (1,2)%Z (1,3)%Z)], (Some TokenError));
  ([120;32;61;32;39;97;92;10;98;39;32;43;32;121;10]%N, [(false, mk_tok TOther [120]%N (1,0)%Z (1,1)%Z); (false, mk_tok TOther [61]%N (1,2)%Z (1,3)%Z); (false, mk_tok TString [39;97;92;10;98;39]%N (1,4)%Z (2,2)%Z); (false, mk_tok TOther [43]%N (2,3)%Z (2,4)%Z); (false, mk_tok TOther [121]%N (2,5)%Z (2,6)%Z); (false, mk_tok TNewline [10]%N (2,6)%Z (2,7)%Z); (false, mk_tok TEnd [] (3,0)%Z (3,0)%Z)], None);
  ([120;32;61;32;39;97;10]%N, [(false, mk_tok TOther [120]%N (1,0)%Z (1,1)%Z); (false, mk_tok TOther [61]%N (1,2)%Z (1,3)%Z); (true, mk_tok TOther [32]%N (1,3)%Z (1,4)%Z); (true, mk_tok TOther [39]%N (1,4)%Z (1,5)%Z); (false, mk_tok TOther [97]%N (1,5)%Z (1,6)%Z); (false, mk_tok TNewline [10]%N (1,6)%Z (1,7)%Z); (false, mk_tok TEnd [] (2,0)%Z (2,0)%Z)], None);
  ([120;32;61;32;97;32;43;32;92;10;32;32;32;32;98;10]%N, [(false, mk_tok TOther [120]%N (1,0)%Z (1,1)%Z); (false, mk_tok TOther [61]%N (1,2)%Z (1,3)%Z); (false, mk_tok TOther [97]%N (1,4)%Z (1,5)%Z); (false, mk_tok TOther [43]%N (1,6)%Z (1,7)%Z); (false, mk_tok TOther [98]%N (2,4)%Z (2,5)%Z); (false, mk_tok TNewline [10]%N (2,5)%Z (2,6)%Z); (false, mk_tok TEnd [] (3,0)%Z (3,0)%Z)], None);
  ([120;32;61;32;92]%N, [(false, mk_tok TOther [120]%N (1,0)%Z (1,1)%Z); (false, mk_tok TOther [61]%N (1,2)%Z (1,3)%Z); (true, mk_tok TOther [32]%N (1,3)%Z (1,4)%Z); (true, mk_tok TOther [92]%N (1,4)%Z (1,5)%Z); (false, mk_tok TNewline [] (1,5)%Z (1,6)%Z); (false, mk_tok TEnd [] (2,0)%Z (2,0)%Z)], None);
  ([9;105;102;32;120;58;10;9;32;32;121;10;32;32;32;32;32;32;32;32;122;10]%N, [(false, mk_tok TIndent [9]%N (1,0)%Z (1,1)%Z); (false, mk_tok TOther [105;102]%N (1,1)%Z (1,3)%Z); (false, mk_tok TOther [120]%N (1,4)%Z (1,5)%Z); (false, mk_tok TOther [58]%N (1,5)%Z (1,6)%Z); (false, mk_tok TNewline [10]%N (1,6)%Z (1,7)%Z); (false, mk_tok TIndent [9;32;32]%N (2,0)%Z (2,3)%Z); (false, mk_tok TOther [121]%N (2,3)%Z (2,4)%Z); (false, mk_tok TNewline [10]%N (2,4)%Z (2,5)%Z); (false, mk_tok TDedent [] (3,8)%Z (3,8)%Z); (false, mk_tok TOther [122]%N (3,8)%Z (3,9)%Z); (false, mk_tok TNewline [10]%N (3,9)%Z (3,10)%Z); (false, mk_tok TDedent [] (4,0)%Z (4,0)%Z); (false, mk_tok TEnd [] (4,0)%Z (4,0)%Z)], None);
  ([120;32;61;32;48;120;95;49;102;32;43;32;49;95;48;48;48;46;53;101;45;49;95;48;106;10]%N, [(false, mk_tok TOther [120]%N (1,0)%Z (1,1)%Z); (false, mk_tok TOther [61]%N (1,2)%Z (1,3)%Z); (false, mk_tok TOther [48;120;95;49;102]%N (1,4)%Z (1,9)%Z); (false, mk_tok TOther [43]%N (1,10)%Z (1,11)%Z); (false, mk_tok TOther [49;95;48;48;48;46;53;101;45;49;95;48;106]%N (1,12)%Z (1,25)%Z); (false, mk_tok TNewline [10]%N (1,25)%Z (1,26)%Z); (false, mk_tok TEnd [] (2,0)%Z (2,0)%Z)], None);
  ([97;60;60;61;98;60;62;99;10]%N, [(false, mk_tok TOther [97]%N (1,0)%Z (1,1)%Z); (false, mk_tok TOther [60;60;61]%N (1,1)%Z (1,4)%Z); (false, mk_tok TOther [98]%N (1,4)%Z (1,5)%Z); (false, mk_tok TOther [60]%N (1,5)%Z (1,6)%Z); (false, mk_tok TOther [62]%N (1,6)%Z (1,7)%Z); (false, mk_tok TOther [99]%N (1,7)%Z (1,8)%Z); (false, mk_tok TNewline [10]%N (1,8)%Z (1,9)%Z); (false, mk_tok TEnd [] (2,0)%Z (2,0)%Z)], None);
  ([233;116;233;32;61;32;8364;10]%N, [(false, mk_tok TOther [233;116;233]%N (1,0)%Z (1,3)%Z); (false, mk_tok TOther [61]%N (1,4)%Z (1,5)%Z); (true, mk_tok TOther [32]%N (1,5)%Z (1,6)%Z); (true, mk_tok TOther [8364]%N (1,6)%Z (1,7)%Z); (false, mk_tok TNewline [10]%N (1,7)%Z (1,8)%Z); (false, mk_tok TEnd [] (2,0)%Z (2,0)%Z)], None);
  ([99;108;97;115;115;32;65;58;10;32;32;32;32;39;39;39;100;111;99;39;39;39;10;10;32;32;32;32;100;101;102;32;102;40;115;101;108;102;41;58;10;32;32;32;32;32;32;32;32;114;101;116;117;114;110;32;49;10;10;10;120;32;61;32;50;10]%N, [(false, mk_tok TOther [99;108;97;115;115]%N (1,0)%Z (1,5)%Z); (false, mk_tok TOther [65]%N (1,6)%Z (1,7)%Z); (false, mk_tok TOther [58]%N (1,7)%Z (1,8)%Z); (false, mk_tok TNewline [10]%N (1,8)%Z (1,9)%Z); (false, mk_tok TIndent [32;32;32;32]%N (2,0)%Z (2,4)%Z); (false, mk_tok TString [39;39;39;100;111;99;39;39;39]%N (2,4)%Z (2,13)%Z); (false, mk_tok TNewline [10]%N (2,13)%Z (2,14)%Z); (false, mk_tok TNl [10]%N (3,0)%Z (3,1)%Z); (false, mk_tok TOther [100;101;102]%N (4,4)%Z (4,7)%Z); (false, mk_tok TOther [102]%N (4,8)%Z (4,9)%Z); (false, mk_tok TOther [40]%N (4,9)%Z (4,10)%Z); (false, mk_tok TOther [115;101;108;102]%N (4,10)%Z (4,14)%Z); (false, mk_tok TOther [41]%N (4,14)%Z (4,15)%Z); (false, mk_tok TOther [58]%N (4,15)%Z (4,16)%Z); (false, mk_tok TNewline [10]%N (4,16)%Z (4,17)%Z); (false, mk_tok TIndent [32;32;32;32;32;32;32;32]%N (5,0)%Z (5,8)%Z); (false, mk_tok TOther [114;101;116;117;114;110]%N (5,8)%Z (5,14)%Z); (false, mk_tok TOther [49]%N (5,15)%Z (5,16)%Z); (false, mk_tok TNewline [10]%N (5,16)%Z (5,17)%Z); (false, mk_tok TNl [10]%N (6,0)%Z (6,1)%Z); (false, mk_tok TNl [10]%N (7,0)%Z (7,1)%Z); (false, mk_tok TDedent [] (8,0)%Z (8,0)%Z); (false, mk_tok TDedent [] (8,0)%Z (8,0)%Z); (false, mk_tok TOther [120]%N (8,0)%Z (8,1)%Z); (false, mk_tok TOther [61]%N (8,2)%Z (8,3)%Z); (false, mk_tok TOther [50]%N (8,4)%Z (8,5)%Z); (false, mk_tok TNewline [10]%N (8,5)%Z (8,6)%Z); (false, mk_tok TEnd [] (9,0)%Z (9,0)%Z)], None);
  ([120;32;61;32;114;98;39;97;39;32;82;102;34;98;34;32;117;114;39;99;39;10]%N, [(false, mk_tok TOther [120]%N (1,0)%Z (1,1)%Z); (false, mk_tok TOther [61]%N (1,2)%Z (1,3)%Z); (false, mk_tok TString [114;98;39;97;39]%N (1,4)%Z (1,9)%Z); (false, mk_tok TString [82;102;34;98;34]%N (1,10)%Z (1,15)%Z); (false, mk_tok TOther [117;114]%N (1,16)%Z (1,18)%Z); (false, mk_tok TString [39;99;39]%N (1,18)%Z (1,21)%Z); (false, mk_tok TNewline [10]%N (1,21)%Z (1,22)%Z); (false, mk_tok TEnd [] (2,0)%Z (2,0)%Z)], None);
  ([120;32;61;32;39;97;39;39;98;39;10]%N, [(false, mk_tok TOther [120]%N (1,0)%Z (1,1)%Z); (false, mk_tok TOther [61]%N (1,2)%Z (1,3)%Z); (false, mk_tok TString [39;97;39]%N (1,4)%Z (1,7)%Z); (false, mk_tok TString [39;98;39]%N (1,7)%Z (1,10)%Z); (false, mk_tok TNewline [10]%N (1,10)%Z (1,11)%Z); (false, mk_tok TEnd [] (2,0)%Z (2,0)%Z)], None);
  ([120;32;61;32;39;39;10]%N, [(false, mk_tok TOther [120]%N (1,0)%Z (1,1)%Z); (false, mk_tok TOther [61]%N (1,2)%Z (1,3)%Z); (false, mk_tok TString [39;39]%N (1,4)%Z (1,6)%Z); (false, mk_tok TNewline [10]%N (1,6)%Z (1,7)%Z); (false, mk_tok TEnd [] (2,0)%Z (2,0)%Z)], None);
  ([120;32;61;32;39;39;39;39;10]%N, [(false, mk_tok TOther [120]%N (1,0)%Z (1,1)%Z); (false, mk_tok TOther [61]%N (1,2)%Z (1,3)%Z)], (Some TokenError));
  ([120;32;61;32;39;39;39;39;39;39;10]%N, [(false, mk_tok TOther [120]%N (1,0)%Z (1,1)%Z); (false, mk_tok TOther [61]%N (1,2)%Z (1,3)%Z); (false, mk_tok TString [39;39;39;39;39;39]%N (1,4)%Z (1,10)%Z); (false, mk_tok TNewline [10]%N (1,10)%Z (1,11)%Z); (false, mk_tok TEnd [] (2,0)%Z (2,0)%Z)], None);
  ([105;102;32;120;58;10;32;32;32;32;121]%N, [(false, mk_tok TOther [105;102]%N (1,0)%Z (1,2)%Z); (false, mk_tok TOther [120]%N (1,3)%Z (1,4)%Z); (false, mk_tok TOther [58]%N (1,4)%Z (1,5)%Z); (false, mk_tok TNewline [10]%N (1,5)%Z (1,6)%Z); (false, mk_tok TIndent [32;32;32;32]%N (2,0)%Z (2,4)%Z); (false, mk_tok TOther [121]%N (2,4)%Z (2,5)%Z); (false, mk_tok TNewline [] (2,5)%Z (2,6)%Z); (false, mk_tok TDedent [] (3,0)%Z (3,0)%Z); (false, mk_tok TEnd [] (3,0)%Z (3,0)%Z)], None);
  ([120;13;10;121;13;10]%N, [(false, mk_tok TOther [120]%N (1,0)%Z (1,1)%Z); (false, mk_tok TNewline [13;10]%N (1,1)%Z (1,3)%Z); (false, mk_tok TOther [121]%N (2,0)%Z (2,1)%Z); (false, mk_tok TNewline [13;10]%N (2,1)%Z (2,3)%Z); (false, mk_tok TEnd [] (3,0)%Z (3,0)%Z)], None);
  ([120;32;12;32;121;10]%N, [(false, mk_tok TOther [120]%N (1,0)%Z (1,1)%Z); (false, mk_tok TOther [121]%N (1,4)%Z (1,5)%Z); (false, mk_tok TNewline [10]%N (1,5)%Z (1,6)%Z); (false, mk_tok TEnd [] (2,0)%Z (2,0)%Z)], None);
  ([10;32;32;10;9;10]%N, [(false, mk_tok TNl [10]%N (1,0)%Z (1,1)%Z); (false, mk_tok TNl [10]%N (2,2)%Z (2,3)%Z); (false, mk_tok TNl [10]%N (3,1)%Z (3,2)%Z); (false, mk_tok TEnd [] (4,0)%Z (4,0)%Z)], None);
  ([34;34;34;49;46;53;101;45;51;106;35;32;105;116;39;115;32;34;120;34;10;10;10;32;32]%N, [], (Some TokenError));
  ([13;49;46;47;47;61;10;62;120;102;12;13;10;41;48;95;48;10;32;32;32;32;8364;13;10]%N, [(false, mk_tok TNl [13;49;46;47;47;61;10]%N (1,0)%Z (1,7)%Z); (false, mk_tok TOther [62]%N (2,0)%Z (2,1)%Z); (false, mk_tok TOther [120;102]%N (2,1)%Z (2,3)%Z); (false, mk_tok TNewline [13;10]%N (2,4)%Z (2,6)%Z); (false, mk_tok TOther [41]%N (3,0)%Z (3,1)%Z); (false, mk_tok TOther [48;95;48]%N (3,1)%Z (3,4)%Z); (false, mk_tok TNewline [10]%N (3,4)%Z (3,5)%Z); (true, mk_tok TOther [32]%N (4,0)%Z (4,1)%Z); (true, mk_tok TOther [32]%N (4,1)%Z (4,2)%Z); (true, mk_tok TOther [32]%N (4,2)%Z (4,3)%Z); (true, mk_tok TOther [32]%N (4,3)%Z (4,4)%Z); (true, mk_tok TOther [8364]%N (4,4)%Z (4,5)%Z); (false, mk_tok TNewline [13;10]%N (4,5)%Z (4,7)%Z)], (Some TokenError));
  ([40;10;58;61;92;95;97;49;59;59;47;47;61;10;58;47;47;61;49;46;53;101;45;51;106;10]%N, [(false, mk_tok TOther [40]%N (1,0)%Z (1,1)%Z); (false, mk_tok TNl [10]%N (1,1)%Z (1,2)%Z); (false, mk_tok TOther [58;61]%N (2,0)%Z (2,2)%Z); (true, mk_tok TOther [92]%N (2,2)%Z (2,3)%Z); (false, mk_tok TOther [95;97;49]%N (2,3)%Z (2,6)%Z); (false, mk_tok TOther [59]%N (2,6)%Z (2,7)%Z); (false, mk_tok TOther [59]%N (2,7)%Z (2,8)%Z); (false, mk_tok TOther [47;47;61]%N (2,8)%Z (2,11)%Z); (false, mk_tok TNl [10]%N (2,11)%Z (2,12)%Z); (false, mk_tok TOther [58]%N (3,0)%Z (3,1)%Z); (false, mk_tok TOther [47;47;61]%N (3,1)%Z (3,4)%Z); (false, mk_tok TOther [49;46;53;101;45;51;106]%N (3,4)%Z (3,11)%Z); (false, mk_tok TNl [10]%N (3,11)%Z (3,12)%Z)], (Some TokenError));
  ([10;63;34]%N, [(false, mk_tok TNl [10]%N (1,0)%Z (1,1)%Z); (true, mk_tok TOther [63]%N (2,0)%Z (2,1)%Z); (true, mk_tok TOther [34]%N (2,1)%Z (2,2)%Z); (false, mk_tok TNewline [] (2,2)%Z (2,3)%Z); (false, mk_tok TEnd [] (3,0)%Z (3,0)%Z)], None);
  ([48;95;48;39;39;39;33;92;58]%N, [(false, mk_tok TOther [48;95;48]%N (1,0)%Z (1,3)%Z)], (Some TokenError));
  ([63;92;34;98;82;92;10;47;47;61]%N, [(true, mk_tok TOther [63]%N (1,0)%Z (1,1)%Z); (true, mk_tok TOther [92]%N (1,1)%Z (1,2)%Z); (true, mk_tok TOther [34;98;82;92;10;47;47;61]%N (1,2)%Z (2,3)%Z); (false, mk_tok TNewline [] (2,3)%Z (2,4)%Z); (false, mk_tok TEnd [] (3,0)%Z (3,0)%Z)], None);
  ([35;117;114;46;53;13;36;39;97;39;10;32;32;32;32;58;61;10;44;120;45;92;34]%N, [(false, mk_tok TComment [35;117;114;46;53;13;36;39;97;39]%N (1,0)%Z (1,10)%Z); (false, mk_tok TNl [10]%N (1,10)%Z (1,11)%Z); (false, mk_tok TIndent [32;32;32;32]%N (2,0)%Z (2,4)%Z); (false, mk_tok TOther [58;61]%N (2,4)%Z (2,6)%Z); (false, mk_tok TNewline [10]%N (2,6)%Z (2,7)%Z); (false, mk_tok TDedent [] (3,0)%Z (3,0)%Z); (false, mk_tok TOther [44]%N (3,0)%Z (3,1)%Z); (false, mk_tok TOther [120]%N (3,1)%Z (3,2)%Z); (false, mk_tok TOther [45]%N (3,2)%Z (3,3)%Z); (true, mk_tok TOther [92]%N (3,3)%Z (3,4)%Z); (true, mk_tok TOther [34]%N (3,4)%Z (3,5)%Z); (false, mk_tok TNewline [] (3,5)%Z (3,6)%Z); (false, mk_tok TEnd [] (4,0)%Z (4,0)%Z)], None);
  ([40;34;34;34;97;10;98;34;34;34;48;98;49;50;125;47;47;61;123;49;46;48;120;49;70;48;98;82;39;39;34;34;34;97;10;98;34;34;34;48]%N, [(false, mk_tok TOther [40]%N (1,0)%Z (1,1)%Z); (false, mk_tok TString [34;34;34;97;10;98;34;34;34]%N (1,1)%Z (2,4)%Z); (false, mk_tok TOther [48;98;49]%N (2,4)%Z (2,7)%Z); (false, mk_tok TOther [50]%N (2,7)%Z (2,8)%Z); (false, mk_tok TOther [125]%N (2,8)%Z (2,9)%Z); (false, mk_tok TOther [47;47;61]%N (2,9)%Z (2,12)%Z); (false, mk_tok TOther [123]%N (2,12)%Z (2,13)%Z); (false, mk_tok TOther [49;46;48]%N (2,13)%Z (2,16)%Z); (false, mk_tok TOther [120;49;70;48;98;82]%N (2,16)%Z (2,22)%Z); (false, mk_tok TString [39;39]%N (2,22)%Z (2,24)%Z); (false, mk_tok TString [34;34;34;97;10;98;34;34;34]%N (2,24)%Z (3,4)%Z); (false, mk_tok TOther [48]%N (3,4)%Z (3,5)%Z)], (Some TokenError));
  ([58;48;120;49;70]%N, [(false, mk_tok TOther [58]%N (1,0)%Z (1,1)%Z); (false, mk_tok TOther [48;120;49;70]%N (1,1)%Z (1,5)%Z); (false, mk_tok TNewline [] (1,5)%Z (1,6)%Z); (false, mk_tok TEnd [] (2,0)%Z (2,0)%Z)], None);
  ([45;49;101;102;39;120;39;93;49;95;95;48;96;10;32;32;92;62;61;48;95;48;102;10;10;49;101]%N, [(false, mk_tok TOther [45]%N (1,0)%Z (1,1)%Z); (false, mk_tok TOther [49]%N (1,1)%Z (1,2)%Z); (false, mk_tok TOther [101;102]%N (1,2)%Z (1,4)%Z); (false, mk_tok TString [39;120;39]%N (1,4)%Z (1,7)%Z); (false, mk_tok TOther [93]%N (1,7)%Z (1,8)%Z); (false, mk_tok TOther [49]%N (1,8)%Z (1,9)%Z); (false, mk_tok TOther [95;95;48]%N (1,9)%Z (1,12)%Z); (true, mk_tok TOther [96]%N (1,12)%Z (1,13)%Z); (false, mk_tok TNewline [10]%N (1,13)%Z (1,14)%Z); (true, mk_tok TOther [32]%N (2,0)%Z (2,1)%Z); (true, mk_tok TOther [32]%N (2,1)%Z (2,2)%Z); (true, mk_tok TOther [92]%N (2,2)%Z (2,3)%Z); (false, mk_tok TOther [62;61]%N (2,3)%Z (2,5)%Z); (false, mk_tok TOther [48;95;48]%N (2,5)%Z (2,8)%Z); (false, mk_tok TOther [102]%N (2,8)%Z (2,9)%Z); (false, mk_tok TNewline [10]%N (2,9)%Z (2,10)%Z); (false, mk_tok TNewline [10]%N (3,0)%Z (3,1)%Z); (false, mk_tok TOther [49]%N (4,0)%Z (4,1)%Z); (false, mk_tok TOther [101]%N (4,1)%Z (4,2)%Z)], (Some TokenError));
  ([45;62;48;95;48;10]%N, [(false, mk_tok TOther [45;62]%N (1,0)%Z (1,2)%Z); (false, mk_tok TOther [48;95;48]%N (1,2)%Z (1,5)%Z); (false, mk_tok TNewline [10]%N (1,5)%Z (1,6)%Z); (false, mk_tok TEnd [] (2,0)%Z (2,0)%Z)], None);
  ([61;63]%N, [(false, mk_tok TOther [61]%N (1,0)%Z (1,1)%Z); (true, mk_tok TOther [63]%N (1,1)%Z (1,2)%Z); (false, mk_tok TNewline [] (1,2)%Z (1,3)%Z); (false, mk_tok TEnd [] (2,0)%Z (2,0)%Z)], None);
  ([48;98;49;50;49;101;92;110;49;101;43;126;45;47;47;61;123;10;32;32;32;32;13;10;49;43;39;39]%N, [(false, mk_tok TOther [48;98;49]%N (1,0)%Z (1,3)%Z); (false, mk_tok TOther [50;49]%N (1,3)%Z (1,5)%Z); (false, mk_tok TOther [101]%N (1,5)%Z (1,6)%Z); (true, mk_tok TOther [92]%N (1,6)%Z (1,7)%Z); (false, mk_tok TOther [110;49;101]%N (1,7)%Z (1,10)%Z); (false, mk_tok TOther [43]%N (1,10)%Z (1,11)%Z); (false, mk_tok TOther [126]%N (1,11)%Z (1,12)%Z); (false, mk_tok TOther [45]%N (1,12)%Z (1,13)%Z); (false, mk_tok TOther [47;47;61]%N (1,13)%Z (1,16)%Z); (false, mk_tok TOther [123]%N (1,16)%Z (1,17)%Z); (false, mk_tok TNl [10]%N (1,17)%Z (1,18)%Z); (false, mk_tok TNl [13;10]%N (2,4)%Z (2,6)%Z); (false, mk_tok TOther [49]%N (3,0)%Z (3,1)%Z); (false, mk_tok TOther [43]%N (3,1)%Z (3,2)%Z); (false, mk_tok TString [39;39]%N (3,2)%Z (3,4)%Z)], (Some TokenError));
  ([10;102;39;120;39]%N, [(false, mk_tok TNl [10]%N (1,0)%Z (1,1)%Z); (false, mk_tok TString [102;39;120;39]%N (2,0)%Z (2,4)%Z); (false, mk_tok TNewline [] (2,4)%Z (2,5)%Z); (false, mk_tok TEnd [] (3,0)%Z (3,0)%Z)], None);
  ([35;32;99;10;58;92;34;93;49;95;95;48]%N, [(false, mk_tok TComment [35;32;99]%N (1,0)%Z (1,3)%Z); (false, mk_tok TNl [10]%N (1,3)%Z (1,4)%Z); (false, mk_tok TOther [58]%N (2,0)%Z (2,1)%Z); (true, mk_tok TOther [92]%N (2,1)%Z (2,2)%Z); (true, mk_tok TOther [34]%N (2,2)%Z (2,3)%Z); (false, mk_tok TOther [93]%N (2,3)%Z (2,4)%Z); (false, mk_tok TOther [49]%N (2,4)%Z (2,5)%Z); (false, mk_tok TOther [95;95;48]%N (2,5)%Z (2,8)%Z)], (Some TokenError));
  ([115;101;108;101;99;116;32;97;49;101;43;32;32;32;32;125;49;46;53;102;46;92;13;10]%N, [(false, mk_tok TOther [115;101;108;101;99;116]%N (1,0)%Z (1,6)%Z); (false, mk_tok TOther [97;49;101]%N (1,7)%Z (1,10)%Z); (false, mk_tok TOther [43]%N (1,10)%Z (1,11)%Z); (false, mk_tok TOther [125]%N (1,15)%Z (1,16)%Z); (false, mk_tok TOther [49;46;53]%N (1,16)%Z (1,19)%Z); (false, mk_tok TOther [102]%N (1,19)%Z (1,20)%Z); (false, mk_tok TOther [46]%N (1,20)%Z (1,21)%Z)], (Some TokenError));
  ([10;120;102;39;97;92;10;98;39;49;95;95;48;39;114;39;92;39;48;49;46;53;101;45;51;106]%N, [(false, mk_tok TNl [10]%N (1,0)%Z (1,1)%Z); (false, mk_tok TOther [120;102]%N (2,0)%Z (2,2)%Z); (false, mk_tok TString [39;97;92;10;98;39]%N (2,2)%Z (3,2)%Z); (false, mk_tok TOther [49]%N (3,2)%Z (3,3)%Z); (false, mk_tok TOther [95;95;48]%N (3,3)%Z (3,6)%Z); (false, mk_tok TString [39;114;39]%N (3,6)%Z (3,9)%Z); (true, mk_tok TOther [92]%N (3,9)%Z (3,10)%Z); (true, mk_tok TOther [39]%N (3,10)%Z (3,11)%Z); (false, mk_tok TOther [48;49;46;53;101;45;51;106]%N (3,11)%Z (3,19)%Z); (false, mk_tok TNewline [] (3,19)%Z (3,20)%Z); (false, mk_tok TEnd [] (4,0)%Z (4,0)%Z)], None);
  ([45;10;32;32;32;32;32;32;32;32;102;93;50;106;36;49;95;48;34]%N, [(false, mk_tok TOther [45]%N (1,0)%Z (1,1)%Z); (false, mk_tok TNewline [10]%N (1,1)%Z (1,2)%Z); (false, mk_tok TIndent [32;32;32;32;32;32;32;32]%N (2,0)%Z (2,8)%Z); (false, mk_tok TOther [102]%N (2,8)%Z (2,9)%Z); (false, mk_tok TOther [93]%N (2,9)%Z (2,10)%Z); (false, mk_tok TOther [50;106]%N (2,10)%Z (2,12)%Z); (true, mk_tok TOther [36]%N (2,12)%Z (2,13)%Z); (false, mk_tok TOther [49;95;48]%N (2,13)%Z (2,16)%Z); (true, mk_tok TOther [34]%N (2,16)%Z (2,17)%Z)], (Some TokenError));
  ([36;49;95;48;34;34;48;95;48;49;46;53;92;34;46;46;233]%N, [(true, mk_tok TOther [36]%N (1,0)%Z (1,1)%Z); (false, mk_tok TOther [49;95;48]%N (1,1)%Z (1,4)%Z); (false, mk_tok TString [34;34]%N (1,4)%Z (1,6)%Z); (false, mk_tok TOther [48;95;48;49;46;53]%N (1,6)%Z (1,12)%Z); (true, mk_tok TOther [92]%N (1,12)%Z (1,13)%Z); (true, mk_tok TOther [34]%N (1,13)%Z (1,14)%Z); (false, mk_tok TOther [46]%N (1,14)%Z (1,15)%Z); (false, mk_tok TOther [46]%N (1,15)%Z (1,16)%Z); (false, mk_tok TOther [233]%N (1,16)%Z (1,17)%Z); (false, mk_tok TNewline [] (1,17)%Z (1,18)%Z); (false, mk_tok TEnd [] (2,0)%Z (2,0)%Z)], None);
  ([10;32;32;32;32;32;32;32;32;114;98;34;34;34]%N, [(false, mk_tok TNl [10]%N (1,0)%Z (1,1)%Z); (false, mk_tok TIndent [32;32;32;32;32;32;32;32]%N (2,0)%Z (2,8)%Z)], (Some TokenError));
  ([105;102;233;32;32]%N, [(false, mk_tok TOther [105;102;233]%N (1,0)%Z (1,3)%Z); (false, mk_tok TNewline [] (1,5)%Z (1,6)%Z); (false, mk_tok TEnd [] (2,0)%Z (2,0)%Z)], None);
  ([64;98;82;48;49;50;49;95;95;48;32;39;39;39;48;95;48;33;61]%N, [(false, mk_tok TOther [64]%N (1,0)%Z (1,1)%Z); (false, mk_tok TOther [98;82;48;49;50;49;95;95;48]%N (1,1)%Z (1,10)%Z)], (Some TokenError));
  ([46;58;61;48;98;49;50;39;92;110]%N, [(false, mk_tok TOther [46]%N (1,0)%Z (1,1)%Z); (false, mk_tok TOther [58;61]%N (1,1)%Z (1,3)%Z); (false, mk_tok TOther [48;98;49]%N (1,3)%Z (1,6)%Z); (false, mk_tok TOther [50]%N (1,6)%Z (1,7)%Z); (true, mk_tok TOther [39]%N (1,7)%Z (1,8)%Z); (true, mk_tok TOther [92]%N (1,8)%Z (1,9)%Z); (false, mk_tok TOther [110]%N (1,9)%Z (1,10)%Z); (false, mk_tok TNewline [] (1,10)%Z (1,11)%Z); (false, mk_tok TEnd [] (2,0)%Z (2,0)%Z)], None);
  ([44;35;32;105;116;39;115;32;34;120;34;10;92;39;114;39;92;39;10;123;34;34;34;97;10;98;34;34;34;92;34;63;49;46;53;101;45;51;106;49;46;53;101;45;51;106;50;106;49;46;53;101;45;51;106]%N, [(false, mk_tok TOther [44]%N (1,0)%Z (1,1)%Z); (false, mk_tok TComment [35;32;105;116;39;115;32;34;120;34]%N (1,1)%Z (1,11)%Z); (false, mk_tok TNewline [10]%N (1,11)%Z (1,12)%Z); (true, mk_tok TOther [92]%N (2,0)%Z (2,1)%Z); (false, mk_tok TString [39;114;39]%N (2,1)%Z (2,4)%Z); (true, mk_tok TOther [92]%N (2,4)%Z (2,5)%Z); (true, mk_tok TOther [39]%N (2,5)%Z (2,6)%Z); (false, mk_tok TNewline [10]%N (2,6)%Z (2,7)%Z); (false, mk_tok TOther [123]%N (3,0)%Z (3,1)%Z); (false, mk_tok TString [34;34;34;97;10;98;34;34;34]%N (3,1)%Z (4,4)%Z); (true, mk_tok TOther [92]%N (4,4)%Z (4,5)%Z); (true, mk_tok TOther [34]%N (4,5)%Z (4,6)%Z); (true, mk_tok TOther [63]%N (4,6)%Z (4,7)%Z); (false, mk_tok TOther [49;46;53;101;45;51;106]%N (4,7)%Z (4,14)%Z); (false, mk_tok TOther [49;46;53;101;45;51;106]%N (4,14)%Z (4,21)%Z); (false, mk_tok TOther [50;106]%N (4,21)%Z (4,23)%Z); (false, mk_tok TOther [49;46;53;101;45;51;106]%N (4,23)%Z (4,30)%Z)], (Some TokenError));
  ([42;42;61;35]%N, [(false, mk_tok TOther [42;42;61]%N (1,0)%Z (1,3)%Z); (false, mk_tok TComment [35]%N (1,3)%Z (1,4)%Z); (false, mk_tok TNewline [] (1,4)%Z (1,5)%Z); (false, mk_tok TEnd [] (2,0)%Z (2,0)%Z)], None);
  ([10;117;114;10;32;32;32;32;120;91;34;34;34;10;92;13;10;49;101]%N, [(false, mk_tok TNl [10]%N (1,0)%Z (1,1)%Z); (false, mk_tok TOther [117;114]%N (2,0)%Z (2,2)%Z); (false, mk_tok TNewline [10]%N (2,2)%Z (2,3)%Z); (false, mk_tok TIndent [32;32;32;32]%N (3,0)%Z (3,4)%Z); (false, mk_tok TOther [120]%N (3,4)%Z (3,5)%Z); (false, mk_tok TOther [91]%N (3,5)%Z (3,6)%Z)], (Some TokenError));
  ([10;92;10;32;58;61;34;34;34;33;61;13;49;46;46;9;10;32;32;120;46]%N, [(false, mk_tok TNl [10]%N (1,0)%Z (1,1)%Z); (false, mk_tok TOther [58;61]%N (3,1)%Z (3,3)%Z)], (Some TokenError));
  ([34;34;34;35;48;48;49;101;43;96;49;46;43;92]%N, [], (Some TokenError));
  ([45;62;125]%N, [(false, mk_tok TOther [45;62]%N (1,0)%Z (1,2)%Z); (false, mk_tok TOther [125]%N (1,2)%Z (1,3)%Z)], (Some TokenError));
  ([42;42;61;48;120;103;10;32;32;32;32;32;32;32;32;39;39;39;92;10;112;97;115;115;49;101;114;39;92;39]%N, [(false, mk_tok TOther [42;42;61]%N (1,0)%Z (1,3)%Z); (false, mk_tok TOther [48]%N (1,3)%Z (1,4)%Z); (false, mk_tok TOther [120;103]%N (1,4)%Z (1,6)%Z); (false, mk_tok TNewline [10]%N (1,6)%Z (1,7)%Z); (false, mk_tok TIndent [32;32;32;32;32;32;32;32]%N (2,0)%Z (2,8)%Z)], (Some TokenError));
  ([42;42;61;92;110;34;34;34;10;60;60;61;32;32;32;32]%N, [(false, mk_tok TOther [42;42;61]%N (1,0)%Z (1,3)%Z); (true, mk_tok TOther [92]%N (1,3)%Z (1,4)%Z); (false, mk_tok TOther [110]%N (1,4)%Z (1,5)%Z)], (Some TokenError));
  ([60;62;49;46;39;39;39]%N, [(false, mk_tok TOther [60]%N (1,0)%Z (1,1)%Z); (false, mk_tok TOther [62]%N (1,1)%Z (1,2)%Z); (false, mk_tok TOther [49;46]%N (1,2)%Z (1,4)%Z)], (Some TokenError));
  ([9;61;60;62;48;120;49;70;35;32;99;10;13;10;39;39;48;49;50;60;60;61;49;46;102;49;46;53;39;97;92;10;98;39]%N, [(false, mk_tok TIndent [9]%N (1,0)%Z (1,1)%Z); (false, mk_tok TOther [61]%N (1,1)%Z (1,2)%Z); (false, mk_tok TOther [60]%N (1,2)%Z (1,3)%Z); (false, mk_tok TOther [62]%N (1,3)%Z (1,4)%Z); (false, mk_tok TOther [48;120;49;70]%N (1,4)%Z (1,8)%Z); (false, mk_tok TComment [35;32;99]%N (1,8)%Z (1,11)%Z); (false, mk_tok TNewline [10]%N (1,11)%Z (1,12)%Z); (false, mk_tok TNl [13;10]%N (2,0)%Z (2,2)%Z); (false, mk_tok TDedent [] (3,0)%Z (3,0)%Z); (false, mk_tok TString [39;39]%N (3,0)%Z (3,2)%Z); (false, mk_tok TOther [48]%N (3,2)%Z (3,3)%Z); (false, mk_tok TOther [49;50]%N (3,3)%Z (3,5)%Z); (false, mk_tok TOther [60;60;61]%N (3,5)%Z (3,8)%Z); (false, mk_tok TOther [49;46]%N (3,8)%Z (3,10)%Z); (false, mk_tok TOther [102;49]%N (3,10)%Z (3,12)%Z); (false, mk_tok TOther [46;53]%N (3,12)%Z (3,14)%Z); (false, mk_tok TString [39;97;92;10;98;39]%N (3,14)%Z (4,2)%Z); (false, mk_tok TNewline [] (4,2)%Z (4,3)%Z); (false, mk_tok TEnd [] (5,0)%Z (5,0)%Z)], None);
  ([33;61;33;34;34;34;97;10;98;34;34;34]%N, [(false, mk_tok TOther [33;61]%N (1,0)%Z (1,2)%Z); (true, mk_tok TOther [33]%N (1,2)%Z (1,3)%Z); (false, mk_tok TString [34;34;34;97;10;98;34;34;34]%N (1,3)%Z (2,4)%Z); (false, mk_tok TNewline [] (2,4)%Z (2,5)%Z); (false, mk_tok TEnd [] (3,0)%Z (3,0)%Z)], None);
  ([49;101;53;35;95;97;49;46;39;39;39;92;39;39;39;39;61;117;114;8364;50;106;114;39;92;39;233;117;60;60;61]%N, [(false, mk_tok TOther [49;101;53]%N (1,0)%Z (1,3)%Z); (false, mk_tok TComment [35;95;97;49;46;39;39;39;92;39;39;39;39;61;117;114;8364;50;106;114;39;92;39;233;117;60;60;61]%N (1,3)%Z (1,31)%Z); (false, mk_tok TNewline [] (1,31)%Z (1,32)%Z); (false, mk_tok TEnd [] (2,0)%Z (2,0)%Z)], None);
  ([49;46;53;102;39;120;39;9;9;49;95;48;43;48;49;50;117;114]%N, [(false, mk_tok TOther [49;46;53]%N (1,0)%Z (1,3)%Z); (false, mk_tok TString [102;39;120;39]%N (1,3)%Z (1,7)%Z); (false, mk_tok TOther [49;95;48]%N (1,9)%Z (1,12)%Z); (false, mk_tok TOther [43]%N (1,12)%Z (1,13)%Z); (false, mk_tok TOther [48]%N (1,13)%Z (1,14)%Z); (false, mk_tok TOther [49;50]%N (1,14)%Z (1,16)%Z); (false, mk_tok TOther [117;114]%N (1,16)%Z (1,18)%Z); (false, mk_tok TNewline [] (1,18)%Z (1,19)%Z); (false, mk_tok TEnd [] (2,0)%Z (2,0)%Z)], None);
  ([49;101;43;93;34;98;34;49;101;43;49;46;10;32;32;32;32;32;32;32;32;95;97;49;92;10;233;43;117;49;101;120]%N, [(false, mk_tok TOther [49]%N (1,0)%Z (1,1)%Z); (false, mk_tok TOther [101]%N (1,1)%Z (1,2)%Z); (false, mk_tok TOther [43]%N (1,2)%Z (1,3)%Z); (false, mk_tok TOther [93]%N (1,3)%Z (1,4)%Z); (false, mk_tok TString [34;98;34]%N (1,4)%Z (1,7)%Z); (false, mk_tok TOther [49;101;43;49]%N (1,7)%Z (1,11)%Z); (false, mk_tok TOther [46]%N (1,11)%Z (1,12)%Z); (false, mk_tok TNewline [10]%N (1,12)%Z (1,13)%Z); (false, mk_tok TOther [95;97;49]%N (2,8)%Z (2,11)%Z); (false, mk_tok TOther [233]%N (3,0)%Z (3,1)%Z); (false, mk_tok TOther [43]%N (3,1)%Z (3,2)%Z); (false, mk_tok TOther [117;49;101;120]%N (3,2)%Z (3,6)%Z)], (Some TokenError));
  ([44;46;32;42;42;61;35;32;105;116;39;115;32;34;120;34;10;49;101;43;35;32;99;10;10;32;32;32;32;32;32;32;32]%N, [(false, mk_tok TOther [44]%N (1,0)%Z (1,1)%Z); (false, mk_tok TOther [46]%N (1,1)%Z (1,2)%Z); (false, mk_tok TOther [42;42;61]%N (1,3)%Z (1,6)%Z); (false, mk_tok TComment [35;32;105;116;39;115;32;34;120;34]%N (1,6)%Z (1,16)%Z); (false, mk_tok TNewline [10]%N (1,16)%Z (1,17)%Z); (false, mk_tok TOther [49]%N (2,0)%Z (2,1)%Z); (false, mk_tok TOther [101]%N (2,1)%Z (2,2)%Z); (false, mk_tok TOther [43]%N (2,2)%Z (2,3)%Z); (false, mk_tok TComment [35;32;99]%N (2,3)%Z (2,6)%Z); (false, mk_tok TNewline [10]%N (2,6)%Z (2,7)%Z); (false, mk_tok TNl [10]%N (3,0)%Z (3,1)%Z); (false, mk_tok TEnd [] (4,0)%Z (4,0)%Z)], None);
  ([46;46;46;39;39;39;92;39;39;39;39]%N, [(false, mk_tok TOther [46;46;46]%N (1,0)%Z (1,3)%Z); (false, mk_tok TString [39;39;39;92;39;39;39;39]%N (1,3)%Z (1,11)%Z); (false, mk_tok TNewline [] (1,11)%Z (1,12)%Z); (false, mk_tok TEnd [] (2,0)%Z (2,0)%Z)], None);
  ([42;42;61;114;98;41]%N, [(false, mk_tok TOther [42;42;61]%N (1,0)%Z (1,3)%Z); (false, mk_tok TOther [114;98]%N (1,3)%Z (1,5)%Z); (false, mk_tok TOther [41]%N (1,5)%Z (1,6)%Z)], (Some TokenError));
  ([13;10;34;98;34;49;46;53;101;45;51;106;125;50;106]%N, [(false, mk_tok TNl [13;10]%N (1,0)%Z (1,2)%Z); (false, mk_tok TString [34;98;34]%N (2,0)%Z (2,3)%Z); (false, mk_tok TOther [49;46;53;101;45;51;106]%N (2,3)%Z (2,10)%Z); (false, mk_tok TOther [125]%N (2,10)%Z (2,11)%Z); (false, mk_tok TOther [50;106]%N (2,11)%Z (2,13)%Z)], (Some TokenError));
  ([34;98;34;34;34;34;10]%N, [(false, mk_tok TString [34;98;34]%N (1,0)%Z (1,3)%Z)], (Some TokenError));
  ([39;9;34;34;34]%N, [(true, mk_tok TOther [39]%N (1,0)%Z (1,1)%Z)], (Some TokenError));
  ([125;35;32;105;116;39;115;32;34;120;34;10;39;39;39;46;126;43;105;102;49;101;43;34;34;34;36;36;39;32;32;32;32]%N, [(false, mk_tok TOther [125]%N (1,0)%Z (1,1)%Z); (false, mk_tok TComment [35;32;105;116;39;115;32;34;120;34]%N (1,1)%Z (1,11)%Z); (false, mk_tok TNewline [10]%N (1,11)%Z (1,12)%Z)], (Some TokenError));
  ([34;98;34;35;32;105;116;39;115;32;34;120;34;10]%N, [(false, mk_tok TString [34;98;34]%N (1,0)%Z (1,3)%Z); (false, mk_tok TComment [35;32;105;116;39;115;32;34;120;34]%N (1,3)%Z (1,13)%Z); (false, mk_tok TNewline [10]%N (1,13)%Z (1,14)%Z); (false, mk_tok TEnd [] (2,0)%Z (2,0)%Z)], None);
  ([60;62;112;97;115;115]%N, [(false, mk_tok TOther [60]%N (1,0)%Z (1,1)%Z); (false, mk_tok TOther [62]%N (1,1)%Z (1,2)%Z); (false, mk_tok TOther [112;97;115;115]%N (1,2)%Z (1,6)%Z); (false, mk_tok TNewline [] (1,6)%Z (1,7)%Z); (false, mk_tok TEnd [] (2,0)%Z (2,0)%Z)], None);
  ([41;117;114;120;102]%N, [(false, mk_tok TOther [41]%N (1,0)%Z (1,1)%Z); (false, mk_tok TOther [117;114;120;102]%N (1,1)%Z (1,5)%Z)], (Some TokenError));
  ([48;48;120;102]%N, [(false, mk_tok TOther [48;48]%N (1,0)%Z (1,2)%Z); (false, mk_tok TOther [120;102]%N (1,2)%Z (1,4)%Z); (false, mk_tok TNewline [] (1,4)%Z (1,5)%Z); (false, mk_tok TEnd [] (2,0)%Z (2,0)%Z)], None);
  ([62;8364;61;64;48;111;55;56]%N, [(false, mk_tok TOther [62]%N (1,0)%Z (1,1)%Z); (true, mk_tok TOther [8364]%N (1,1)%Z (1,2)%Z); (false, mk_tok TOther [61]%N (1,2)%Z (1,3)%Z); (false, mk_tok TOther [64]%N (1,3)%Z (1,4)%Z); (false, mk_tok TOther [48;111;55]%N (1,4)%Z (1,7)%Z); (false, mk_tok TOther [56]%N (1,7)%Z (1,8)%Z); (false, mk_tok TNewline [] (1,8)%Z (1,9)%Z); (false, mk_tok TEnd [] (2,0)%Z (2,0)%Z)], None);
  ([33;48;95;48;39;10;114;39;92;39]%N, [(true, mk_tok TOther [33]%N (1,0)%Z (1,1)%Z); (false, mk_tok TOther [48;95;48]%N (1,1)%Z (1,4)%Z); (true, mk_tok TOther [39]%N (1,4)%Z (1,5)%Z); (false, mk_tok TNewline [10]%N (1,5)%Z (1,6)%Z); (false, mk_tok TOther [114]%N (2,0)%Z (2,1)%Z); (true, mk_tok TOther [39]%N (2,1)%Z (2,2)%Z); (true, mk_tok TOther [92]%N (2,2)%Z (2,3)%Z); (true, mk_tok TOther [39]%N (2,3)%Z (2,4)%Z); (false, mk_tok TNewline [] (2,4)%Z (2,5)%Z); (false, mk_tok TEnd [] (3,0)%Z (3,0)%Z)], None);
  ([123;105;102;47;47;61;60;60;61;48;95;48]%N, [(false, mk_tok TOther [123]%N (1,0)%Z (1,1)%Z); (false, mk_tok TOther [105;102]%N (1,1)%Z (1,3)%Z); (false, mk_tok TOther [47;47;61]%N (1,3)%Z (1,6)%Z); (false, mk_tok TOther [60;60;61]%N (1,6)%Z (1,9)%Z); (false, mk_tok TOther [48;95;48]%N (1,9)%Z (1,12)%Z)], (Some TokenError));
  ([39;33;61;34;34;34;60;62;62;61;32;32;32;32;91;34;34;34;97;10;98;34;34;34;98;82;96;32;34;34;34;97;10;98;34;34;34;34;34;34]%N, [(true, mk_tok TOther [39]%N (1,0)%Z (1,1)%Z); (false, mk_tok TOther [33;61]%N (1,1)%Z (1,3)%Z); (false, mk_tok TString [34;34;34;60;62;62;61;32;32;32;32;91;34;34;34]%N (1,3)%Z (1,18)%Z); (false, mk_tok TOther [97]%N (1,18)%Z (1,19)%Z); (false, mk_tok TNewline [10]%N (1,19)%Z (1,20)%Z); (false, mk_tok TString [98;34;34;34;98;82;96;32;34;34;34]%N (2,0)%Z (2,11)%Z); (false, mk_tok TOther [97]%N (2,11)%Z (2,12)%Z); (false, mk_tok TNewline [10]%N (2,12)%Z (2,13)%Z); (false, mk_tok TString [98;34;34;34;34;34;34]%N (3,0)%Z (3,7)%Z); (false, mk_tok TNewline [] (3,7)%Z (3,8)%Z); (false, mk_tok TEnd [] (4,0)%Z (4,0)%Z)], None);
  ([39;39;39;43;44]%N, [], (Some TokenError));
  ([63;10]%N, [(true, mk_tok TOther [63]%N (1,0)%Z (1,1)%Z); (false, mk_tok TNewline [10]%N (1,1)%Z (1,2)%Z); (false, mk_tok TEnd [] (2,0)%Z (2,0)%Z)], None);
  ([92;34;60;60;61;60;62;63;42;42;61]%N, [(true, mk_tok TOther [92]%N (1,0)%Z (1,1)%Z); (true, mk_tok TOther [34]%N (1,1)%Z (1,2)%Z); (false, mk_tok TOther [60;60;61]%N (1,2)%Z (1,5)%Z); (false, mk_tok TOther [60]%N (1,5)%Z (1,6)%Z); (false, mk_tok TOther [62]%N (1,6)%Z (1,7)%Z); (true, mk_tok TOther [63]%N (1,7)%Z (1,8)%Z); (false, mk_tok TOther [42;42;61]%N (1,8)%Z (1,11)%Z); (false, mk_tok TNewline [] (1,11)%Z (1,12)%Z); (false, mk_tok TEnd [] (2,0)%Z (2,0)%Z)], None);
  ([63;10]%N, [(true, mk_tok TOther [63]%N (1,0)%Z (1,1)%Z); (false, mk_tok TNewline [10]%N (1,1)%Z (1,2)%Z); (false, mk_tok TEnd [] (2,0)%Z (2,0)%Z)], None);
  ([117;114;49;95;48;10]%N, [(false, mk_tok TOther [117;114;49;95;48]%N (1,0)%Z (1,5)%Z); (false, mk_tok TNewline [10]%N (1,5)%Z (1,6)%Z); (false, mk_tok TEnd [] (2,0)%Z (2,0)%Z)], None);
  ([62;93]%N, [(false, mk_tok TOther [62]%N (1,0)%Z (1,1)%Z); (false, mk_tok TOther [93]%N (1,1)%Z (1,2)%Z)], (Some TokenError));
  ([9;61;10;32;32;32;32;91;48;111;55;56;46;62;96;62;61;117;92;110;49;95;48;93]%N, [(false, mk_tok TIndent [9]%N (1,0)%Z (1,1)%Z); (false, mk_tok TOther [61]%N (1,1)%Z (1,2)%Z); (false, mk_tok TNewline [10]%N (1,2)%Z (1,3)%Z)], (Some IndentationError));
  ([33;61;42;42;61;62;48;39;39;60;60;61;48;49;50;63;117;93;34;48;95;48;92]%N, [(false, mk_tok TOther [33;61]%N (1,0)%Z (1,2)%Z); (false, mk_tok TOther [42;42;61]%N (1,2)%Z (1,5)%Z); (false, mk_tok TOther [62]%N (1,5)%Z (1,6)%Z); (false, mk_tok TOther [48]%N (1,6)%Z (1,7)%Z); (false, mk_tok TString [39;39]%N (1,7)%Z (1,9)%Z); (false, mk_tok TOther [60;60;61]%N (1,9)%Z (1,12)%Z); (false, mk_tok TOther [48]%N (1,12)%Z (1,13)%Z); (false, mk_tok TOther [49;50]%N (1,13)%Z (1,15)%Z); (true, mk_tok TOther [63]%N (1,15)%Z (1,16)%Z); (false, mk_tok TOther [117]%N (1,16)%Z (1,17)%Z); (false, mk_tok TOther [93]%N (1,17)%Z (1,18)%Z); (true, mk_tok TOther [34]%N (1,18)%Z (1,19)%Z); (false, mk_tok TOther [48;95;48]%N (1,19)%Z (1,22)%Z); (true, mk_tok TOther [92]%N (1,22)%Z (1,23)%Z)], (Some TokenError));
  ([91;48;98;49;50;10;32;32;115;101;108;101;99;116;32;97;8364;40;10;32;32;120;102]%N, [(false, mk_tok TOther [91]%N (1,0)%Z (1,1)%Z); (false, mk_tok TOther [48;98;49]%N (1,1)%Z (1,4)%Z); (false, mk_tok TOther [50]%N (1,4)%Z (1,5)%Z); (false, mk_tok TNl [10]%N (1,5)%Z (1,6)%Z); (false, mk_tok TOther [115;101;108;101;99;116]%N (2,2)%Z (2,8)%Z); (false, mk_tok TOther [97]%N (2,9)%Z (2,10)%Z); (true, mk_tok TOther [8364]%N (2,10)%Z (2,11)%Z); (false, mk_tok TOther [40]%N (2,11)%Z (2,12)%Z); (false, mk_tok TNl [10]%N (2,12)%Z (2,13)%Z); (false, mk_tok TOther [120;102]%N (3,2)%Z (3,4)%Z)], (Some TokenError));
  ([39;39;39;92;39;39;39;39;92;34;34;34;97;10;98;34;34;34;34;34;34;39;97;39]%N, [(false, mk_tok TString [39;39;39;92;39;39;39;39]%N (1,0)%Z (1,8)%Z); (true, mk_tok TOther [92]%N (1,8)%Z (1,9)%Z); (false, mk_tok TString [34;34;34;97;10;98;34;34;34]%N (1,9)%Z (2,4)%Z)], (Some TokenError));
  ([39;39;39;48;48;34;125;95;97;49]%N, [], (Some TokenError));
  ([49;46;53;101;45;51;106;45;62]%N, [(false, mk_tok TOther [49;46;53;101;45;51;106]%N (1,0)%Z (1,7)%Z); (false, mk_tok TOther [45;62]%N (1,7)%Z (1,9)%Z); (false, mk_tok TNewline [] (1,9)%Z (1,10)%Z); (false, mk_tok TEnd [] (2,0)%Z (2,0)%Z)], None);
  ([115;101;108;101;99;116;32;97;95;97;49;34;34;34;10]%N, [(false, mk_tok TOther [115;101;108;101;99;116]%N (1,0)%Z (1,6)%Z); (false, mk_tok TOther [97;95;97;49]%N (1,7)%Z (1,11)%Z)], (Some TokenError));
  ([62;61;50;106;49;101;48;95;48;117;49;46;53;48;98;49;50;13;10]%N, [(false, mk_tok TOther [62;61]%N (1,0)%Z (1,2)%Z); (false, mk_tok TOther [50;106]%N (1,2)%Z (1,4)%Z); (false, mk_tok TOther [49;101;48;95;48]%N (1,4)%Z (1,9)%Z); (false, mk_tok TOther [117;49]%N (1,9)%Z (1,11)%Z); (false, mk_tok TOther [46;53;48]%N (1,11)%Z (1,14)%Z); (false, mk_tok TOther [98;49;50]%N (1,14)%Z (1,17)%Z); (false, mk_tok TNewline [13;10]%N (1,17)%Z (1,19)%Z); (false, mk_tok TEnd [] (2,0)%Z (2,0)%Z)], None);
  ([32;32;32;32;49;101;36;123;91]%N, [(false, mk_tok TIndent [32;32;32;32]%N (1,0)%Z (1,4)%Z); (false, mk_tok TOther [49]%N (1,4)%Z (1,5)%Z); (false, mk_tok TOther [101]%N (1,5)%Z (1,6)%Z); (true, mk_tok TOther [36]%N (1,6)%Z (1,7)%Z); (false, mk_tok TOther [123]%N (1,7)%Z (1,8)%Z); (false, mk_tok TOther [91]%N (1,8)%Z (1,9)%Z)], (Some TokenError));
  ([46;46;46;49;101;53]%N, [(false, mk_tok TOther [46;46;46]%N (1,0)%Z (1,3)%Z); (false, mk_tok TOther [49;101;53]%N (1,3)%Z (1,6)%Z); (false, mk_tok TNewline [] (1,6)%Z (1,7)%Z); (false, mk_tok TEnd [] (2,0)%Z (2,0)%Z)], None);
  ([44;49;95;62;61;10;32;32;32;32;92;13;10;39;39;39;92;39;39;39;39;233;92;10;10;32;32;32;32;32;32;32;32;48;49;50;49;10;34;34;34;97;10;98;34;34;34]%N, [(false, mk_tok TOther [44]%N (1,0)%Z (1,1)%Z); (false, mk_tok TOther [49]%N (1,1)%Z (1,2)%Z); (false, mk_tok TOther [95]%N (1,2)%Z (1,3)%Z); (false, mk_tok TOther [62;61]%N (1,3)%Z (1,5)%Z); (false, mk_tok TNewline [10]%N (1,5)%Z (1,6)%Z); (false, mk_tok TIndent [32;32;32;32]%N (2,0)%Z (2,4)%Z); (false, mk_tok TString [39;39;39;92;39;39;39;39]%N (3,0)%Z (3,8)%Z); (false, mk_tok TOther [233]%N (3,8)%Z (3,9)%Z); (false, mk_tok TNewline [10]%N (4,0)%Z (4,1)%Z); (false, mk_tok TIndent [32;32;32;32;32;32;32;32]%N (5,0)%Z (5,8)%Z); (false, mk_tok TOther [48]%N (5,8)%Z (5,9)%Z); (false, mk_tok TOther [49;50;49]%N (5,9)%Z (5,12)%Z); (false, mk_tok TNewline [10]%N (5,12)%Z (5,13)%Z); (false, mk_tok TDedent [] (6,0)%Z (6,0)%Z); (false, mk_tok TDedent [] (6,0)%Z (6,0)%Z); (false, mk_tok TString [34;34;34;97;10;98;34;34;34]%N (6,0)%Z (7,4)%Z); (false, mk_tok TNewline [] (7,4)%Z (7,5)%Z); (false, mk_tok TEnd [] (8,0)%Z (8,0)%Z)], None);
  ([49;10;10;39]%N, [(false, mk_tok TOther [49]%N (1,0)%Z (1,1)%Z); (false, mk_tok TNewline [10]%N (1,1)%Z (1,2)%Z); (false, mk_tok TNl [10]%N (2,0)%Z (2,1)%Z); (true, mk_tok TOther [39]%N (3,0)%Z (3,1)%Z); (false, mk_tok TNewline [] (3,1)%Z (3,2)%Z); (false, mk_tok TEnd [] (4,0)%Z (4,0)%Z)], None);
  ([92;39;48;49;50;50;106;34;34;34;33;61;62;61;58;45]%N, [(true, mk_tok TOther [92]%N (1,0)%Z (1,1)%Z); (true, mk_tok TOther [39]%N (1,1)%Z (1,2)%Z); (false, mk_tok TOther [48;49;50;50;106]%N (1,2)%Z (1,7)%Z)], (Some TokenError));
  ([13;10;49;95;48;10;92;110;98;82]%N, [(false, mk_tok TNl [13;10]%N (1,0)%Z (1,2)%Z); (false, mk_tok TOther [49;95;48]%N (2,0)%Z (2,3)%Z); (false, mk_tok TNewline [10]%N (2,3)%Z (2,4)%Z); (true, mk_tok TOther [92]%N (3,0)%Z (3,1)%Z); (false, mk_tok TOther [110;98;82]%N (3,1)%Z (3,4)%Z); (false, mk_tok TNewline [] (3,4)%Z (3,5)%Z); (false, mk_tok TEnd [] (4,0)%Z (4,0)%Z)], None);
  ([10;32;32;49;32;32;32;32;35;13;10;48;49;50;10;32;32;32;32;32;32;32;32;96]%N, [(false, mk_tok TNl [10]%N (1,0)%Z (1,1)%Z); (false, mk_tok TIndent [32;32]%N (2,0)%Z (2,2)%Z); (false, mk_tok TOther [49]%N (2,2)%Z (2,3)%Z); (false, mk_tok TComment [35]%N (2,7)%Z (2,8)%Z); (false, mk_tok TNewline [13;10]%N (2,8)%Z (2,10)%Z); (false, mk_tok TDedent [] (3,0)%Z (3,0)%Z); (false, mk_tok TOther [48]%N (3,0)%Z (3,1)%Z); (false, mk_tok TOther [49;50]%N (3,1)%Z (3,3)%Z); (false, mk_tok TNewline [10]%N (3,3)%Z (3,4)%Z); (false, mk_tok TIndent [32;32;32;32;32;32;32;32]%N (4,0)%Z (4,8)%Z); (true, mk_tok TOther [96]%N (4,8)%Z (4,9)%Z); (false, mk_tok TNewline [] (4,9)%Z (4,10)%Z); (false, mk_tok TDedent [] (5,0)%Z (5,0)%Z); (false, mk_tok TEnd [] (5,0)%Z (5,0)%Z)], None);
  ([10;32;32;32;32;48;49;50;92]%N, [(false, mk_tok TNl [10]%N (1,0)%Z (1,1)%Z); (false, mk_tok TIndent [32;32;32;32]%N (2,0)%Z (2,4)%Z); (false, mk_tok TOther [48]%N (2,4)%Z (2,5)%Z); (false, mk_tok TOther [49;50]%N (2,5)%Z (2,7)%Z); (true, mk_tok TOther [92]%N (2,7)%Z (2,8)%Z); (false, mk_tok TNewline [] (2,8)%Z (2,9)%Z); (false, mk_tok TDedent [] (3,0)%Z (3,0)%Z); (false, mk_tok TEnd [] (3,0)%Z (3,0)%Z)], None);
  ([32;32;49;101;36;48;95;48;49;44;39;10]%N, [(false, mk_tok TIndent [32;32]%N (1,0)%Z (1,2)%Z); (false, mk_tok TOther [49]%N (1,2)%Z (1,3)%Z); (false, mk_tok TOther [101]%N (1,3)%Z (1,4)%Z); (true, mk_tok TOther [36]%N (1,4)%Z (1,5)%Z); (false, mk_tok TOther [48;95;48]%N (1,5)%Z (1,8)%Z); (false, mk_tok TOther [49]%N (1,8)%Z (1,9)%Z); (false, mk_tok TOther [44]%N (1,9)%Z (1,10)%Z); (true, mk_tok TOther [39]%N (1,10)%Z (1,11)%Z); (false, mk_tok TNewline [10]%N (1,11)%Z (1,12)%Z); (false, mk_tok TDedent [] (2,0)%Z (2,0)%Z); (false, mk_tok TEnd [] (2,0)%Z (2,0)%Z)], None);
  ([34;34;8364;92;13;10;34;34;34;10;48;49;50;10;98;82;117;48;120;103;59;48;120;103;60;62;61]%N, [(false, mk_tok TString [34;34]%N (1,0)%Z (1,2)%Z); (true, mk_tok TOther [8364]%N (1,2)%Z (1,3)%Z)], (Some TokenError));
  ([49;95;93;62]%N, [(false, mk_tok TOther [49]%N (1,0)%Z (1,1)%Z); (false, mk_tok TOther [95]%N (1,1)%Z (1,2)%Z); (false, mk_tok TOther [93]%N (1,2)%Z (1,3)%Z); (false, mk_tok TOther [62]%N (1,3)%Z (1,4)%Z)], (Some TokenError));
  ([49;49;101;43;32;32;32;32]%N, [(false, mk_tok TOther [49;49]%N (1,0)%Z (1,2)%Z); (false, mk_tok TOther [101]%N (1,2)%Z (1,3)%Z); (false, mk_tok TOther [43]%N (1,3)%Z (1,4)%Z); (false, mk_tok TNewline [] (1,8)%Z (1,9)%Z); (false, mk_tok TEnd [] (2,0)%Z (2,0)%Z)], None);
  ([12;32;32;32;32;32;32;102;39;120;39;62]%N, [(false, mk_tok TIndent [12;32;32;32;32;32;32]%N (1,0)%Z (1,7)%Z); (false, mk_tok TString [102;39;120;39]%N (1,7)%Z (1,11)%Z); (false, mk_tok TOther [62]%N (1,11)%Z (1,12)%Z); (false, mk_tok TNewline [] (1,12)%Z (1,13)%Z); (false, mk_tok TDedent [] (2,0)%Z (2,0)%Z); (false, mk_tok TEnd [] (2,0)%Z (2,0)%Z)], None);
  ([117;114;62;61;43;48;93;92;10;105;102;35;32;105;116;39;115;32;34;120;34;10;41;105;102;45;33;49;46;53;101;45;51;106]%N, [(false, mk_tok TOther [117;114]%N (1,0)%Z (1,2)%Z); (false, mk_tok TOther [62;61]%N (1,2)%Z (1,4)%Z); (false, mk_tok TOther [43]%N (1,4)%Z (1,5)%Z); (false, mk_tok TOther [48]%N (1,5)%Z (1,6)%Z); (false, mk_tok TOther [93]%N (1,6)%Z (1,7)%Z); (false, mk_tok TOther [105;102]%N (2,0)%Z (2,2)%Z); (false, mk_tok TComment [35;32;105;116;39;115;32;34;120;34]%N (2,2)%Z (2,12)%Z); (false, mk_tok TNewline [10]%N (2,12)%Z (2,13)%Z); (false, mk_tok TOther [41]%N (3,0)%Z (3,1)%Z); (false, mk_tok TOther [105;102]%N (3,1)%Z (3,3)%Z); (false, mk_tok TOther [45]%N (3,3)%Z (3,4)%Z); (true, mk_tok TOther [33]%N (3,4)%Z (3,5)%Z); (false, mk_tok TOther [49;46;53;101;45;51;106]%N (3,5)%Z (3,12)%Z)], (Some TokenError));
  ([48;120;103;92;110;120;102;233;49;101;117;34;34;102;39;120;39;35;34;50;106;49;101;43;10]%N, [(false, mk_tok TOther [48]%N (1,0)%Z (1,1)%Z); (false, mk_tok TOther [120;103]%N (1,1)%Z (1,3)%Z); (true, mk_tok TOther [92]%N (1,3)%Z (1,4)%Z); (false, mk_tok TOther [110;120;102;233;49;101;117]%N (1,4)%Z (1,11)%Z); (false, mk_tok TString [34;34]%N (1,11)%Z (1,13)%Z); (false, mk_tok TString [102;39;120;39]%N (1,13)%Z (1,17)%Z); (false, mk_tok TComment [35;34;50;106;49;101;43]%N (1,17)%Z (1,24)%Z); (false, mk_tok TNewline [10]%N (1,24)%Z (1,25)%Z); (false, mk_tok TEnd [] (2,0)%Z (2,0)%Z)], None);
  ([32;32;10;32;32;59]%N, [(false, mk_tok TNl [10]%N (1,2)%Z (1,3)%Z); (false, mk_tok TIndent [32;32]%N (2,0)%Z (2,2)%Z); (false, mk_tok TOther [59]%N (2,2)%Z (2,3)%Z); (false, mk_tok TNewline [] (2,3)%Z (2,4)%Z); (false, mk_tok TDedent [] (3,0)%Z (3,0)%Z); (false, mk_tok TEnd [] (3,0)%Z (3,0)%Z)], None);
  ([41;34;34;34;10;10;10;32;32;32;32;32;32;32;32;115;101;108;101;99;116;32;97]%N, [(false, mk_tok TOther [41]%N (1,0)%Z (1,1)%Z)], (Some TokenError));
  ([62;115;101;108;101;99;116;32;97;49;95;95;48;126;48;92;110;49;95;10]%N, [(false, mk_tok TOther [62]%N (1,0)%Z (1,1)%Z); (false, mk_tok TOther [115;101;108;101;99;116]%N (1,1)%Z (1,7)%Z); (false, mk_tok TOther [97;49;95;95;48]%N (1,8)%Z (1,13)%Z); (false, mk_tok TOther [126]%N (1,13)%Z (1,14)%Z); (false, mk_tok TOther [48]%N (1,14)%Z (1,15)%Z); (true, mk_tok TOther [92]%N (1,15)%Z (1,16)%Z); (false, mk_tok TOther [110;49;95]%N (1,16)%Z (1,19)%Z); (false, mk_tok TNewline [10]%N (1,19)%Z (1,20)%Z); (false, mk_tok TEnd [] (2,0)%Z (2,0)%Z)], None);
  ([98;82;34;34;34;10;49;93;32;48;49;50;49;46;49;101;53]%N, [], (Some TokenError));
  ([48;111;55;56;48;12;48;120;103;120;102;49;46;53;98;82;32;49;101;53;46;46;10;32;32;32;32;32;32;32;32;43;49;95;48]%N, [(false, mk_tok TOther [48;111;55]%N (1,0)%Z (1,3)%Z); (false, mk_tok TOther [56;48]%N (1,3)%Z (1,5)%Z); (false, mk_tok TOther [48]%N (1,6)%Z (1,7)%Z); (false, mk_tok TOther [120;103;120;102;49]%N (1,7)%Z (1,12)%Z); (false, mk_tok TOther [46;53]%N (1,12)%Z (1,14)%Z); (false, mk_tok TOther [98;82]%N (1,14)%Z (1,16)%Z); (false, mk_tok TOther [49;101;53]%N (1,17)%Z (1,20)%Z); (false, mk_tok TOther [46]%N (1,20)%Z (1,21)%Z); (false, mk_tok TOther [46]%N (1,21)%Z (1,22)%Z); (false, mk_tok TNewline [10]%N (1,22)%Z (1,23)%Z); (false, mk_tok TIndent [32;32;32;32;32;32;32;32]%N (2,0)%Z (2,8)%Z); (false, mk_tok TOther [43]%N (2,8)%Z (2,9)%Z); (false, mk_tok TOther [49;95;48]%N (2,9)%Z (2,12)%Z); (false, mk_tok TNewline [] (2,12)%Z (2,13)%Z); (false, mk_tok TDedent [] (3,0)%Z (3,0)%Z); (false, mk_tok TEnd [] (3,0)%Z (3,0)%Z)], None);
  ([35;32;105;116;39;115;32;34;120;34;10;117;48;62;34;34;34;97;10;98;34;34;34;32;13;10;48;49;50;13;10;39;39;39;50;106;64;10]%N, [(false, mk_tok TComment [35;32;105;116;39;115;32;34;120;34]%N (1,0)%Z (1,10)%Z); (false, mk_tok TNl [10]%N (1,10)%Z (1,11)%Z); (false, mk_tok TOther [117;48]%N (2,0)%Z (2,2)%Z); (false, mk_tok TOther [62]%N (2,2)%Z (2,3)%Z); (false, mk_tok TString [34;34;34;97;10;98;34;34;34]%N (2,3)%Z (3,4)%Z); (false, mk_tok TNewline [13;10]%N (3,5)%Z (3,7)%Z); (false, mk_tok TOther [48]%N (4,0)%Z (4,1)%Z); (false, mk_tok TOther [49;50]%N (4,1)%Z (4,3)%Z); (false, mk_tok TNewline [13;10]%N (4,3)%Z (4,5)%Z)], (Some TokenError));
  ([32;32;32;32;48;120;49;70;48;120;49;70;59;233;10;32;32;32;32;32;32;32;32;47;47;61;60;62]%N, [(false, mk_tok TIndent [32;32;32;32]%N (1,0)%Z (1,4)%Z); (false, mk_tok TOther [48;120;49;70;48]%N (1,4)%Z (1,9)%Z); (false, mk_tok TOther [120;49;70]%N (1,9)%Z (1,12)%Z); (false, mk_tok TOther [59]%N (1,12)%Z (1,13)%Z); (false, mk_tok TOther [233]%N (1,13)%Z (1,14)%Z); (false, mk_tok TNewline [10]%N (1,14)%Z (1,15)%Z); (false, mk_tok TIndent [32;32;32;32;32;32;32;32]%N (2,0)%Z (2,8)%Z); (false, mk_tok TOther [47;47;61]%N (2,8)%Z (2,11)%Z); (false, mk_tok TOther [60]%N (2,11)%Z (2,12)%Z); (false, mk_tok TOther [62]%N (2,12)%Z (2,13)%Z); (false, mk_tok TNewline [] (2,13)%Z (2,14)%Z); (false, mk_tok TDedent [] (3,0)%Z (3,0)%Z); (false, mk_tok TDedent [] (3,0)%Z (3,0)%Z); (false, mk_tok TEnd [] (3,0)%Z (3,0)%Z)], None);
  ([105;102;39;97;39;39;39;39;92;39;39;39;39]%N, [(false, mk_tok TOther [105;102]%N (1,0)%Z (1,2)%Z); (false, mk_tok TString [39;97;39]%N (1,2)%Z (1,5)%Z); (false, mk_tok TString [39;39;39;92;39;39;39;39]%N (1,5)%Z (1,13)%Z); (false, mk_tok TNewline [] (1,13)%Z (1,14)%Z); (false, mk_tok TEnd [] (2,0)%Z (2,0)%Z)], None);
  ([46;46;46;61;48;111;55;56;34;98;34;45;34;34;34;49;95;95;48;34;98;34;44;35;32;99;10;39;39;39;10;39;97;39]%N, [(false, mk_tok TOther [46;46;46]%N (1,0)%Z (1,3)%Z); (false, mk_tok TOther [61]%N (1,3)%Z (1,4)%Z); (false, mk_tok TOther [48;111;55]%N (1,4)%Z (1,7)%Z); (false, mk_tok TOther [56]%N (1,7)%Z (1,8)%Z); (false, mk_tok TString [34;98;34]%N (1,8)%Z (1,11)%Z); (false, mk_tok TOther [45]%N (1,11)%Z (1,12)%Z)], (Some TokenError));
  ([59;40;102;39;120;39;39;39;62;34;60;62;10;10;62;58;61;32;32;32;32;92;34;47;47;61]%N, [(false, mk_tok TOther [59]%N (1,0)%Z (1,1)%Z); (false, mk_tok TOther [40]%N (1,1)%Z (1,2)%Z); (false, mk_tok TString [102;39;120;39]%N (1,2)%Z (1,6)%Z); (false, mk_tok TString [39;39]%N (1,6)%Z (1,8)%Z); (false, mk_tok TOther [62]%N (1,8)%Z (1,9)%Z); (true, mk_tok TOther [34]%N (1,9)%Z (1,10)%Z); (false, mk_tok TOther [60]%N (1,10)%Z (1,11)%Z); (false, mk_tok TOther [62]%N (1,11)%Z (1,12)%Z); (false, mk_tok TNl [10]%N (1,12)%Z (1,13)%Z); (false, mk_tok TNl [10]%N (2,0)%Z (2,1)%Z); (false, mk_tok TOther [62]%N (3,0)%Z (3,1)%Z); (false, mk_tok TOther [58;61]%N (3,1)%Z (3,3)%Z); (true, mk_tok TOther [32]%N (3,3)%Z (3,4)%Z); (true, mk_tok TOther [32]%N (3,4)%Z (3,5)%Z); (true, mk_tok TOther [32]%N (3,5)%Z (3,6)%Z); (true, mk_tok TOther [32]%N (3,6)%Z (3,7)%Z); (true, mk_tok TOther [92]%N (3,7)%Z (3,8)%Z); (true, mk_tok TOther [34]%N (3,8)%Z (3,9)%Z); (false, mk_tok TOther [47;47;61]%N (3,9)%Z (3,12)%Z)], (Some TokenError));
  ([10;32;32;32;32;32;32;32;32;9;10]%N, [(false, mk_tok TNl [10]%N (1,0)%Z (1,1)%Z); (false, mk_tok TNl [10]%N (2,9)%Z (2,10)%Z); (false, mk_tok TEnd [] (3,0)%Z (3,0)%Z)], None);
  ([35;49;46;92;10]%N, [(false, mk_tok TComment [35;49;46;92]%N (1,0)%Z (1,4)%Z); (false, mk_tok TNl [10]%N (1,4)%Z (1,5)%Z); (false, mk_tok TEnd [] (2,0)%Z (2,0)%Z)], None);
  ([93;63;10;59;32;32;32;32;59;33;61;92;34]%N, [(false, mk_tok TOther [93]%N (1,0)%Z (1,1)%Z); (true, mk_tok TOther [63]%N (1,1)%Z (1,2)%Z); (false, mk_tok TNewline [10]%N (1,2)%Z (1,3)%Z); (false, mk_tok TOther [59]%N (2,0)%Z (2,1)%Z); (false, mk_tok TOther [59]%N (2,5)%Z (2,6)%Z); (false, mk_tok TOther [33;61]%N (2,6)%Z (2,8)%Z); (true, mk_tok TOther [92]%N (2,8)%Z (2,9)%Z); (true, mk_tok TOther [34]%N (2,9)%Z (2,10)%Z)], (Some TokenError));
  ([45;62;48;49;50;32]%N, [(false, mk_tok TOther [45;62]%N (1,0)%Z (1,2)%Z); (false, mk_tok TOther [48]%N (1,2)%Z (1,3)%Z); (false, mk_tok TOther [49;50]%N (1,3)%Z (1,5)%Z); (false, mk_tok TNewline [] (1,6)%Z (1,7)%Z); (false, mk_tok TEnd [] (2,0)%Z (2,0)%Z)], None);
  ([10;32;32;32;32;112;97;115;115;62;33;61;13;10;105;102;60;62;10;32;32;32;32]%N, [(false, mk_tok TNl [10]%N (1,0)%Z (1,1)%Z); (false, mk_tok TIndent [32;32;32;32]%N (2,0)%Z (2,4)%Z); (false, mk_tok TOther [112;97;115;115]%N (2,4)%Z (2,8)%Z); (false, mk_tok TOther [62]%N (2,8)%Z (2,9)%Z); (false, mk_tok TOther [33;61]%N (2,9)%Z (2,11)%Z); (false, mk_tok TNewline [13;10]%N (2,11)%Z (2,13)%Z); (false, mk_tok TDedent [] (3,0)%Z (3,0)%Z); (false, mk_tok TOther [105;102]%N (3,0)%Z (3,2)%Z); (false, mk_tok TOther [60]%N (3,2)%Z (3,3)%Z); (false, mk_tok TOther [62]%N (3,3)%Z (3,4)%Z); (false, mk_tok TNewline [10]%N (3,4)%Z (3,5)%Z); (false, mk_tok TEnd [] (4,0)%Z (4,0)%Z)], None);
  ([48;48;10;32;32;48;49;50;8364;102;39;120;39;10;10;120;233]%N, [(false, mk_tok TOther [48;48]%N (1,0)%Z (1,2)%Z); (false, mk_tok TNewline [10]%N (1,2)%Z (1,3)%Z); (false, mk_tok TIndent [32;32]%N (2,0)%Z (2,2)%Z); (false, mk_tok TOther [48]%N (2,2)%Z (2,3)%Z); (false, mk_tok TOther [49;50]%N (2,3)%Z (2,5)%Z); (true, mk_tok TOther [8364]%N (2,5)%Z (2,6)%Z); (false, mk_tok TString [102;39;120;39]%N (2,6)%Z (2,10)%Z); (false, mk_tok TNewline [10]%N (2,10)%Z (2,11)%Z); (false, mk_tok TNl [10]%N (3,0)%Z (3,1)%Z); (false, mk_tok TDedent [] (4,0)%Z (4,0)%Z); (false, mk_tok TOther [120;233]%N (4,0)%Z (4,2)%Z); (false, mk_tok TNewline [] (4,2)%Z (4,3)%Z); (false, mk_tok TEnd [] (5,0)%Z (5,0)%Z)], None);
  ([45;46;46;10;32;32;42;42;61;92;34;49;95;95;48;39;97;92;10;98;39;10]%N, [(false, mk_tok TOther [45]%N (1,0)%Z (1,1)%Z); (false, mk_tok TOther [46]%N (1,1)%Z (1,2)%Z); (false, mk_tok TOther [46]%N (1,2)%Z (1,3)%Z); (false, mk_tok TNewline [10]%N (1,3)%Z (1,4)%Z); (false, mk_tok TIndent [32;32]%N (2,0)%Z (2,2)%Z); (false, mk_tok TOther [42;42;61]%N (2,2)%Z (2,5)%Z); (true, mk_tok TOther [92]%N (2,5)%Z (2,6)%Z); (true, mk_tok TOther [34;49;95;95;48;39;97;92;10;98;39;10]%N (2,6)%Z (3,3)%Z); (false, mk_tok TDedent [] (4,0)%Z (4,0)%Z); (false, mk_tok TEnd [] (4,0)%Z (4,0)%Z)], None);
  ([59;35;32;99;10;117;10;32;32;126;39;39;39;49;101;53;48;48;35;32;105;116;39;115;32;34;120;34;10;112;97;115;115;92;110;48;120;49;70;44]%N, [(false, mk_tok TOther [59]%N (1,0)%Z (1,1)%Z); (false, mk_tok TComment [35;32;99]%N (1,1)%Z (1,4)%Z); (false, mk_tok TNewline [10]%N (1,4)%Z (1,5)%Z); (false, mk_tok TOther [117]%N (2,0)%Z (2,1)%Z); (false, mk_tok TNewline [10]%N (2,1)%Z (2,2)%Z); (false, mk_tok TIndent [32;32]%N (3,0)%Z (3,2)%Z); (false, mk_tok TOther [126]%N (3,2)%Z (3,3)%Z)], (Some TokenError));
  ([34;32;32;42;42;61;10;45;62;49;92;39;13;92;110;120;102;92;39;45;62;49;95]%N, [(true, mk_tok TOther [34]%N (1,0)%Z (1,1)%Z); (false, mk_tok TOther [42;42;61]%N (1,3)%Z (1,6)%Z); (false, mk_tok TNewline [10]%N (1,6)%Z (1,7)%Z); (false, mk_tok TOther [45;62]%N (2,0)%Z (2,2)%Z); (false, mk_tok TOther [49]%N (2,2)%Z (2,3)%Z); (true, mk_tok TOther [92]%N (2,3)%Z (2,4)%Z); (true, mk_tok TOther [39]%N (2,4)%Z (2,5)%Z); (true, mk_tok TOther [13]%N (2,5)%Z (2,6)%Z); (true, mk_tok TOther [92]%N (2,6)%Z (2,7)%Z); (false, mk_tok TOther [110;120;102]%N (2,7)%Z (2,10)%Z); (true, mk_tok TOther [92]%N (2,10)%Z (2,11)%Z); (true, mk_tok TOther [39]%N (2,11)%Z (2,12)%Z); (false, mk_tok TOther [45;62]%N (2,12)%Z (2,14)%Z); (false, mk_tok TOther [49]%N (2,14)%Z (2,15)%Z); (false, mk_tok TOther [95]%N (2,15)%Z (2,16)%Z); (false, mk_tok TNewline [] (2,16)%Z (2,17)%Z); (false, mk_tok TEnd [] (3,0)%Z (3,0)%Z)], None);
  ([49;95;95;48;125;125;125;39;97;92;10;98;39;92;36;117;48;120;103;10;32;32;32;32;32;32;32;32;43;32;32;32;32;49;95]%N, [(false, mk_tok TOther [49]%N (1,0)%Z (1,1)%Z); (false, mk_tok TOther [95;95;48]%N (1,1)%Z (1,4)%Z); (false, mk_tok TOther [125]%N (1,4)%Z (1,5)%Z); (false, mk_tok TOther [125]%N (1,5)%Z (1,6)%Z); (false, mk_tok TOther [125]%N (1,6)%Z (1,7)%Z); (false, mk_tok TString [39;97;92;10;98;39]%N (1,7)%Z (2,2)%Z); (true, mk_tok TOther [92]%N (2,2)%Z (2,3)%Z); (true, mk_tok TOther [36]%N (2,3)%Z (2,4)%Z); (false, mk_tok TOther [117;48;120;103]%N (2,4)%Z (2,8)%Z); (false, mk_tok TNewline [10]%N (2,8)%Z (2,9)%Z); (false, mk_tok TOther [43]%N (3,8)%Z (3,9)%Z); (false, mk_tok TOther [49]%N (3,13)%Z (3,14)%Z); (false, mk_tok TOther [95]%N (3,14)%Z (3,15)%Z)], (Some TokenError));
  ([10;32;32;62;93;49;46;46;46;120;120;10;32;32]%N, [(false, mk_tok TNl [10]%N (1,0)%Z (1,1)%Z); (false, mk_tok TIndent [32;32]%N (2,0)%Z (2,2)%Z); (false, mk_tok TOther [62]%N (2,2)%Z (2,3)%Z); (false, mk_tok TOther [93]%N (2,3)%Z (2,4)%Z); (false, mk_tok TOther [49;46]%N (2,4)%Z (2,6)%Z); (false, mk_tok TOther [46]%N (2,6)%Z (2,7)%Z); (false, mk_tok TOther [46]%N (2,7)%Z (2,8)%Z); (false, mk_tok TOther [120;120]%N (2,8)%Z (2,10)%Z); (false, mk_tok TNewline [10]%N (2,10)%Z (2,11)%Z)], (Some TokenError));
  ([13;10;39;39;39;112;97;115;115;60;62;48;49;50;49;46;39;96;59;62;61;49;95;48;92;13;10;34;34]%N, [(false, mk_tok TNl [13;10]%N (1,0)%Z (1,2)%Z)], (Some TokenError));
  ([233;45;45;62;49;46;53;101;45;51;106;9]%N, [(false, mk_tok TOther [233]%N (1,0)%Z (1,1)%Z); (false, mk_tok TOther [45]%N (1,1)%Z (1,2)%Z); (false, mk_tok TOther [45;62]%N (1,2)%Z (1,4)%Z); (false, mk_tok TOther [49;46;53;101;45;51;106]%N (1,4)%Z (1,11)%Z); (false, mk_tok TNewline [] (1,12)%Z (1,13)%Z); (false, mk_tok TEnd [] (2,0)%Z (2,0)%Z)], None);
  ([32;45;62;92;34]%N, [(false, mk_tok TIndent [32]%N (1,0)%Z (1,1)%Z); (false, mk_tok TOther [45;62]%N (1,1)%Z (1,3)%Z); (true, mk_tok TOther [92]%N (1,3)%Z (1,4)%Z); (true, mk_tok TOther [34]%N (1,4)%Z (1,5)%Z); (false, mk_tok TNewline [] (1,5)%Z (1,6)%Z); (false, mk_tok TDedent [] (2,0)%Z (2,0)%Z); (false, mk_tok TEnd [] (2,0)%Z (2,0)%Z)], None);
  ([50;106;48;120;49;70;102;39;120;39;39;39;39;48;95;48;49;101;43;46;46;48;98;49;50]%N, [(false, mk_tok TOther [50;106]%N (1,0)%Z (1,2)%Z); (false, mk_tok TOther [48;120;49;70;102]%N (1,2)%Z (1,7)%Z); (false, mk_tok TString [39;120;39]%N (1,7)%Z (1,10)%Z)], (Some TokenError));
  ([49;101;53;32]%N, [(false, mk_tok TOther [49;101;53]%N (1,0)%Z (1,3)%Z); (false, mk_tok TNewline [] (1,4)%Z (1,5)%Z); (false, mk_tok TEnd [] (2,0)%Z (2,0)%Z)], None);
  ([10;10;49;101;49;46;53;101;45;51;106;92;117]%N, [(false, mk_tok TNl [10]%N (1,0)%Z (1,1)%Z); (false, mk_tok TNl [10]%N (2,0)%Z (2,1)%Z); (false, mk_tok TOther [49;101;49]%N (3,0)%Z (3,3)%Z); (false, mk_tok TOther [46;53;101;45;51;106]%N (3,3)%Z (3,9)%Z); (true, mk_tok TOther [92]%N (3,9)%Z (3,10)%Z); (false, mk_tok TOther [117]%N (3,10)%Z (3,11)%Z); (false, mk_tok TNewline [] (3,11)%Z (3,12)%Z); (false, mk_tok TEnd [] (4,0)%Z (4,0)%Z)], None);
  ([114;39;92;39;49;95]%N, [(false, mk_tok TOther [114]%N (1,0)%Z (1,1)%Z); (true, mk_tok TOther [39]%N (1,1)%Z (1,2)%Z); (true, mk_tok TOther [92]%N (1,2)%Z (1,3)%Z); (true, mk_tok TOther [39]%N (1,3)%Z (1,4)%Z); (false, mk_tok TOther [49]%N (1,4)%Z (1,5)%Z); (false, mk_tok TOther [95]%N (1,5)%Z (1,6)%Z); (false, mk_tok TNewline [] (1,6)%Z (1,7)%Z); (false, mk_tok TEnd [] (2,0)%Z (2,0)%Z)], None);
  ([46;53;10;32;32;32;32;49;46;53;101;45;51;106;46;46;46;64]%N, [(false, mk_tok TOther [46;53]%N (1,0)%Z (1,2)%Z); (false, mk_tok TNewline [10]%N (1,2)%Z (1,3)%Z); (false, mk_tok TIndent [32;32;32;32]%N (2,0)%Z (2,4)%Z); (false, mk_tok TOther [49;46;53;101;45;51;106]%N (2,4)%Z (2,11)%Z); (false, mk_tok TOther [46;46;46]%N (2,11)%Z (2,14)%Z); (false, mk_tok TOther [64]%N (2,14)%Z (2,15)%Z); (false, mk_tok TNewline [] (2,15)%Z (2,16)%Z); (false, mk_tok TDedent [] (3,0)%Z (3,0)%Z); (false, mk_tok TEnd [] (3,0)%Z (3,0)%Z)], None);
  ([49;46;40]%N, [(false, mk_tok TOther [49;46]%N (1,0)%Z (1,2)%Z); (false, mk_tok TOther [40]%N (1,2)%Z (1,3)%Z)], (Some TokenError));
  ([10;49;95;48;92;10;10;105;102]%N, [(false, mk_tok TNl [10]%N (1,0)%Z (1,1)%Z); (false, mk_tok TOther [49;95;48]%N (2,0)%Z (2,3)%Z); (false, mk_tok TNewline [10]%N (3,0)%Z (3,1)%Z); (false, mk_tok TOther [105;102]%N (4,0)%Z (4,2)%Z); (false, mk_tok TNewline [] (4,2)%Z (4,3)%Z); (false, mk_tok TEnd [] (5,0)%Z (5,0)%Z)], None);
  ([35;34;34;34;48;49;41]%N, [(false, mk_tok TComment [35;34;34;34;48;49;41]%N (1,0)%Z (1,7)%Z); (false, mk_tok TNl [] (1,7)%Z (1,7)%Z); (false, mk_tok TEnd [] (2,0)%Z (2,0)%Z)], None);
  ([48;98;49;50;117;114;39;97;92;10;98;39;46;53;39;39;39;92;39;39;39;39;40;9;61;59;50;106;36;36;120]%N, [(false, mk_tok TOther [48;98;49]%N (1,0)%Z (1,3)%Z); (false, mk_tok TOther [50]%N (1,3)%Z (1,4)%Z); (false, mk_tok TOther [117;114]%N (1,4)%Z (1,6)%Z); (false, mk_tok TString [39;97;92;10;98;39]%N (1,6)%Z (2,2)%Z); (false, mk_tok TOther [46;53]%N (2,2)%Z (2,4)%Z); (false, mk_tok TString [39;39;39;92;39;39;39;39]%N (2,4)%Z (2,12)%Z); (false, mk_tok TOther [40]%N (2,12)%Z (2,13)%Z); (false, mk_tok TOther [61]%N (2,14)%Z (2,15)%Z); (false, mk_tok TOther [59]%N (2,15)%Z (2,16)%Z); (false, mk_tok TOther [50;106]%N (2,16)%Z (2,18)%Z); (true, mk_tok TOther [36]%N (2,18)%Z (2,19)%Z); (true, mk_tok TOther [36]%N (2,19)%Z (2,20)%Z); (false, mk_tok TOther [120]%N (2,20)%Z (2,21)%Z)], (Some TokenError));
  ([10;102;39;120;39]%N, [(false, mk_tok TNl [10]%N (1,0)%Z (1,1)%Z); (false, mk_tok TString [102;39;120;39]%N (2,0)%Z (2,4)%Z); (false, mk_tok TNewline [] (2,4)%Z (2,5)%Z); (false, mk_tok TEnd [] (3,0)%Z (3,0)%Z)], None);
  ([93;46;10;10;34;35;32;99;10;49;95;95;48;45;62;10]%N, [(false, mk_tok TOther [93]%N (1,0)%Z (1,1)%Z); (false, mk_tok TOther [46]%N (1,1)%Z (1,2)%Z); (false, mk_tok TNewline [10]%N (1,2)%Z (1,3)%Z); (false, mk_tok TNewline [10]%N (2,0)%Z (2,1)%Z); (true, mk_tok TOther [34]%N (3,0)%Z (3,1)%Z); (false, mk_tok TComment [35;32;99]%N (3,1)%Z (3,4)%Z); (false, mk_tok TNewline [10]%N (3,4)%Z (3,5)%Z); (false, mk_tok TOther [49]%N (4,0)%Z (4,1)%Z); (false, mk_tok TOther [95;95;48]%N (4,1)%Z (4,4)%Z); (false, mk_tok TOther [45;62]%N (4,4)%Z (4,6)%Z); (false, mk_tok TNewline [10]%N (4,6)%Z (4,7)%Z)], (Some TokenError));
  ([39;102;43;48;95;48;49;101;49;95;95;48;48;120;49;70;48;48;114;39;92;39;114;39;92;39;35;32;105;116;39;115;32;34;120;34;10;48;49;50;50;106]%N, [(false, mk_tok TString [39;102;43;48;95;48;49;101;49;95;95;48;48;120;49;70;48;48;114;39]%N (1,0)%Z (1,20)%Z); (true, mk_tok TOther [92]%N (1,20)%Z (1,21)%Z); (false, mk_tok TString [39;114;39]%N (1,21)%Z (1,24)%Z); (true, mk_tok TOther [92]%N (1,24)%Z (1,25)%Z); (false, mk_tok TString [39;35;32;105;116;39]%N (1,25)%Z (1,31)%Z); (false, mk_tok TOther [115]%N (1,31)%Z (1,32)%Z); (false, mk_tok TString [34;120;34]%N (1,33)%Z (1,36)%Z); (false, mk_tok TNewline [10]%N (1,36)%Z (1,37)%Z); (false, mk_tok TOther [48;49;50;50;106]%N (2,0)%Z (2,5)%Z); (false, mk_tok TNewline [] (2,5)%Z (2,6)%Z); (false, mk_tok TEnd [] (3,0)%Z (3,0)%Z)], None);
  ([48;120;49;70;42;42;61;63]%N, [(false, mk_tok TOther [48;120;49;70]%N (1,0)%Z (1,4)%Z); (false, mk_tok TOther [42;42;61]%N (1,4)%Z (1,7)%Z); (true, mk_tok TOther [63]%N (1,7)%Z (1,8)%Z); (false, mk_tok TNewline [] (1,8)%Z (1,9)%Z); (false, mk_tok TEnd [] (2,0)%Z (2,0)%Z)], None);
  ([92;102;35;32;99;10;34;34;34;10;10;32;32;120;62;45]%N, [(true, mk_tok TOther [92]%N (1,0)%Z (1,1)%Z); (false, mk_tok TOther [102]%N (1,1)%Z (1,2)%Z); (false, mk_tok TComment [35;32;99]%N (1,2)%Z (1,5)%Z); (false, mk_tok TNewline [10]%N (1,5)%Z (1,6)%Z)], (Some TokenError));
  ([95;97;49;93;49;101;53;61;93;40;34;36;117;114;48;13;10;114;98;49;101]%N, [(false, mk_tok TOther [95;97;49]%N (1,0)%Z (1,3)%Z); (false, mk_tok TOther [93]%N (1,3)%Z (1,4)%Z); (false, mk_tok TOther [49;101;53]%N (1,4)%Z (1,7)%Z); (false, mk_tok TOther [61]%N (1,7)%Z (1,8)%Z); (false, mk_tok TOther [93]%N (1,8)%Z (1,9)%Z); (false, mk_tok TOther [40]%N (1,9)%Z (1,10)%Z); (true, mk_tok TOther [34]%N (1,10)%Z (1,11)%Z); (true, mk_tok TOther [36]%N (1,11)%Z (1,12)%Z); (false, mk_tok TOther [117;114;48]%N (1,12)%Z (1,15)%Z); (false, mk_tok TNewline [13;10]%N (1,15)%Z (1,17)%Z); (false, mk_tok TOther [114;98;49;101]%N (2,0)%Z (2,4)%Z)], (Some TokenError));
  ([13;10;48;98;49;50;8364;46;53;48;49;50;58;61;117;32;32;32;32;112;97;115;115;49;101;53;74;46;46;46;49;101;53;74;112;97;115;115]%N, [(false, mk_tok TNl [13;10]%N (1,0)%Z (1,2)%Z); (false, mk_tok TOther [48;98;49]%N (2,0)%Z (2,3)%Z); (false, mk_tok TOther [50]%N (2,3)%Z (2,4)%Z); (true, mk_tok TOther [8364]%N (2,4)%Z (2,5)%Z); (false, mk_tok TOther [46;53;48;49;50]%N (2,5)%Z (2,10)%Z); (false, mk_tok TOther [58;61]%N (2,10)%Z (2,12)%Z); (false, mk_tok TOther [117]%N (2,12)%Z (2,13)%Z); (false, mk_tok TOther [112;97;115;115;49;101;53;74]%N (2,17)%Z (2,25)%Z); (false, mk_tok TOther [46;46;46]%N (2,25)%Z (2,28)%Z); (false, mk_tok TOther [49;101;53;74]%N (2,28)%Z (2,32)%Z); (false, mk_tok TOther [112;97;115;115]%N (2,32)%Z (2,36)%Z); (false, mk_tok TNewline [] (2,36)%Z (2,37)%Z); (false, mk_tok TEnd [] (3,0)%Z (3,0)%Z)], None);
  ([120;46;46;49;49;101;10;10;10;45;49;95;48;58;49;46;39;92;34;62]%N, [(false, mk_tok TOther [120]%N (1,0)%Z (1,1)%Z); (false, mk_tok TOther [46]%N (1,1)%Z (1,2)%Z); (false, mk_tok TOther [46;49;49]%N (1,2)%Z (1,5)%Z); (false, mk_tok TOther [101]%N (1,5)%Z (1,6)%Z); (false, mk_tok TNewline [10]%N (1,6)%Z (1,7)%Z); (false, mk_tok TNl [10]%N (2,0)%Z (2,1)%Z); (false, mk_tok TNl [10]%N (3,0)%Z (3,1)%Z); (false, mk_tok TOther [45]%N (4,0)%Z (4,1)%Z); (false, mk_tok TOther [49;95;48]%N (4,1)%Z (4,4)%Z); (false, mk_tok TOther [58]%N (4,4)%Z (4,5)%Z); (false, mk_tok TOther [49;46]%N (4,5)%Z (4,7)%Z); (true, mk_tok TOther [39]%N (4,7)%Z (4,8)%Z); (true, mk_tok TOther [92]%N (4,8)%Z (4,9)%Z); (true, mk_tok TOther [34]%N (4,9)%Z (4,10)%Z); (false, mk_tok TOther [62]%N (4,10)%Z (4,11)%Z); (false, mk_tok TNewline [] (4,11)%Z (4,12)%Z); (false, mk_tok TEnd [] (5,0)%Z (5,0)%Z)], None);
  ([59;120;102;13;10;49;48;46;46;46;50;106;35;32;99;10;93;41;48;120;103;32;32;32;32;39]%N, [(false, mk_tok TOther [59]%N (1,0)%Z (1,1)%Z); (false, mk_tok TOther [120;102]%N (1,1)%Z (1,3)%Z); (false, mk_tok TNewline [13;10]%N (1,3)%Z (1,5)%Z); (false, mk_tok TOther [49;48;46]%N (2,0)%Z (2,3)%Z); (false, mk_tok TOther [46]%N (2,3)%Z (2,4)%Z); (false, mk_tok TOther [46;50;106]%N (2,4)%Z (2,7)%Z); (false, mk_tok TComment [35;32;99]%N (2,7)%Z (2,10)%Z); (false, mk_tok TNewline [10]%N (2,10)%Z (2,11)%Z); (false, mk_tok TOther [93]%N (3,0)%Z (3,1)%Z); (false, mk_tok TOther [41]%N (3,1)%Z (3,2)%Z); (false, mk_tok TOther [48]%N (3,2)%Z (3,3)%Z); (false, mk_tok TOther [120;103]%N (3,3)%Z (3,5)%Z); (true, mk_tok TOther [32]%N (3,5)%Z (3,6)%Z); (true, mk_tok TOther [32]%N (3,6)%Z (3,7)%Z); (true, mk_tok TOther [32]%N (3,7)%Z (3,8)%Z); (true, mk_tok TOther [32]%N (3,8)%Z (3,9)%Z); (true, mk_tok TOther [39]%N (3,9)%Z (3,10)%Z)], (Some TokenError));
  ([40;34;34]%N, [(false, mk_tok TOther [40]%N (1,0)%Z (1,1)%Z); (false, mk_tok TString [34;34]%N (1,1)%Z (1,3)%Z)], (Some TokenError));
  ([64;45;62;32;10;32;32;49;46;53;101;45;51;106;60;62;125;93]%N, [(false, mk_tok TOther [64]%N (1,0)%Z (1,1)%Z); (false, mk_tok TOther [45;62]%N (1,1)%Z (1,3)%Z); (false, mk_tok TNewline [10]%N (1,4)%Z (1,5)%Z); (false, mk_tok TIndent [32;32]%N (2,0)%Z (2,2)%Z); (false, mk_tok TOther [49;46;53;101;45;51;106]%N (2,2)%Z (2,9)%Z); (false, mk_tok TOther [60]%N (2,9)%Z (2,10)%Z); (false, mk_tok TOther [62]%N (2,10)%Z (2,11)%Z); (false, mk_tok TOther [125]%N (2,11)%Z (2,12)%Z); (false, mk_tok TOther [93]%N (2,12)%Z (2,13)%Z)], (Some TokenError));
  ([39;39;39;92;39;39;39;39;92;10;95;97;49]%N, [(false, mk_tok TString [39;39;39;92;39;39;39;39]%N (1,0)%Z (1,8)%Z); (false, mk_tok TOther [95;97;49]%N (2,0)%Z (2,3)%Z); (false, mk_tok TNewline [] (2,3)%Z (2,4)%Z); (false, mk_tok TEnd [] (3,0)%Z (3,0)%Z)], None);
  ([34;34;34;60;60;61;92;34]%N, [], (Some TokenError));
  ([34;98;34;39;39]%N, [(false, mk_tok TString [34;98;34]%N (1,0)%Z (1,3)%Z); (false, mk_tok TString [39;39]%N (1,3)%Z (1,5)%Z); (false, mk_tok TNewline [] (1,5)%Z (1,6)%Z); (false, mk_tok TEnd [] (2,0)%Z (2,0)%Z)], None);
  ([10;32;32;32;32;32;32;32;32;36;34;34;34;97;10;98;34;34;34;10;32;39;39;39;92;39;39;39;39;39;233]%N, [(false, mk_tok TNl [10]%N (1,0)%Z (1,1)%Z); (false, mk_tok TIndent [32;32;32;32;32;32;32;32]%N (2,0)%Z (2,8)%Z); (true, mk_tok TOther [36]%N (2,8)%Z (2,9)%Z); (false, mk_tok TString [34;34;34;97;10;98;34;34;34]%N (2,9)%Z (3,4)%Z); (false, mk_tok TNewline [10]%N (3,4)%Z (3,5)%Z)], (Some IndentationError));
  ([12;35;32;99;10;39;97;39;48;120;49;70;39;59;48;48;60;62;35;41;39;39;61;92;13;10]%N, [(false, mk_tok TComment [35;32;99]%N (1,1)%Z (1,4)%Z); (false, mk_tok TNl [10]%N (1,4)%Z (1,5)%Z); (false, mk_tok TString [39;97;39]%N (2,0)%Z (2,3)%Z); (false, mk_tok TOther [48;120;49;70]%N (2,3)%Z (2,7)%Z); (false, mk_tok TString [39;59;48;48;60;62;35;41;39]%N (2,7)%Z (2,16)%Z)], (Some TokenError));
  ([10;32;32;48;120;49;70]%N, [(false, mk_tok TNl [10]%N (1,0)%Z (1,1)%Z); (false, mk_tok TIndent [32;32]%N (2,0)%Z (2,2)%Z); (false, mk_tok TOther [48;120;49;70]%N (2,2)%Z (2,6)%Z); (false, mk_tok TNewline [] (2,6)%Z (2,7)%Z); (false, mk_tok TDedent [] (3,0)%Z (3,0)%Z); (false, mk_tok TEnd [] (3,0)%Z (3,0)%Z)], None);
  ([47;47;61;117;114;46;46;46;48;49;50;95;97;49;126;32;32;32;33;61;48;120;49;70;123;49;95;48;48;98;49;50]%N, [(false, mk_tok TOther [47;47;61]%N (1,0)%Z (1,3)%Z); (false, mk_tok TOther [117;114]%N (1,3)%Z (1,5)%Z); (false, mk_tok TOther [46;46;46]%N (1,5)%Z (1,8)%Z); (false, mk_tok TOther [48]%N (1,8)%Z (1,9)%Z); (false, mk_tok TOther [49;50]%N (1,9)%Z (1,11)%Z); (false, mk_tok TOther [95;97;49]%N (1,11)%Z (1,14)%Z); (false, mk_tok TOther [126]%N (1,14)%Z (1,15)%Z); (false, mk_tok TOther [33;61]%N (1,18)%Z (1,20)%Z); (false, mk_tok TOther [48;120;49;70]%N (1,20)%Z (1,24)%Z); (false, mk_tok TOther [123]%N (1,24)%Z (1,25)%Z); (false, mk_tok TOther [49;95;48;48]%N (1,25)%Z (1,29)%Z); (false, mk_tok TOther [98;49;50]%N (1,29)%Z (1,32)%Z)], (Some TokenError));
  ([43;60;62;8364]%N, [(false, mk_tok TOther [43]%N (1,0)%Z (1,1)%Z); (false, mk_tok TOther [60]%N (1,1)%Z (1,2)%Z); (false, mk_tok TOther [62]%N (1,2)%Z (1,3)%Z); (true, mk_tok TOther [8364]%N (1,3)%Z (1,4)%Z); (false, mk_tok TNewline [] (1,4)%Z (1,5)%Z); (false, mk_tok TEnd [] (2,0)%Z (2,0)%Z)], None);
  ([48;9;49;101;53;74;34;34;35;32;105;116;39;115;32;34;120;34;10;48;120;103;10;32;32;32;32;117;114;45;92;39;35;32;99;10;48;95;48]%N, [(false, mk_tok TOther [48]%N (1,0)%Z (1,1)%Z); (false, mk_tok TOther [49;101;53;74]%N (1,2)%Z (1,6)%Z); (false, mk_tok TString [34;34]%N (1,6)%Z (1,8)%Z); (false, mk_tok TComment [35;32;105;116;39;115;32;34;120;34]%N (1,8)%Z (1,18)%Z); (false, mk_tok TNewline [10]%N (1,18)%Z (1,19)%Z); (false, mk_tok TOther [48]%N (2,0)%Z (2,1)%Z); (false, mk_tok TOther [120;103]%N (2,1)%Z (2,3)%Z); (false, mk_tok TNewline [10]%N (2,3)%Z (2,4)%Z); (false, mk_tok TIndent [32;32;32;32]%N (3,0)%Z (3,4)%Z); (false, mk_tok TOther [117;114]%N (3,4)%Z (3,6)%Z); (false, mk_tok TOther [45]%N (3,6)%Z (3,7)%Z); (true, mk_tok TOther [92]%N (3,7)%Z (3,8)%Z); (true, mk_tok TOther [39]%N (3,8)%Z (3,9)%Z); (false, mk_tok TComment [35;32;99]%N (3,9)%Z (3,12)%Z); (false, mk_tok TNewline [10]%N (3,12)%Z (3,13)%Z); (false, mk_tok TDedent [] (4,0)%Z (4,0)%Z); (false, mk_tok TOther [48;95;48]%N (4,0)%Z (4,3)%Z); (false, mk_tok TNewline [] (4,3)%Z (4,4)%Z); (false, mk_tok TEnd [] (5,0)%Z (5,0)%Z)], None);
  ([48;48;233]%N, [(false, mk_tok TOther [48;48]%N (1,0)%Z (1,2)%Z); (false, mk_tok TOther [233]%N (1,2)%Z (1,3)%Z); (false, mk_tok TNewline [] (1,3)%Z (1,4)%Z); (false, mk_tok TEnd [] (2,0)%Z (2,0)%Z)], None);
  ([46;53;233;45;12;39;39;49;101;39;97;39;48;95;48]%N, [(false, mk_tok TOther [46;53]%N (1,0)%Z (1,2)%Z); (false, mk_tok TOther [233]%N (1,2)%Z (1,3)%Z); (false, mk_tok TOther [45]%N (1,3)%Z (1,4)%Z); (false, mk_tok TString [39;39]%N (1,5)%Z (1,7)%Z); (false, mk_tok TOther [49]%N (1,7)%Z (1,8)%Z); (false, mk_tok TOther [101]%N (1,8)%Z (1,9)%Z); (false, mk_tok TString [39;97;39]%N (1,9)%Z (1,12)%Z); (false, mk_tok TOther [48;95;48]%N (1,12)%Z (1,15)%Z); (false, mk_tok TNewline [] (1,15)%Z (1,16)%Z); (false, mk_tok TEnd [] (2,0)%Z (2,0)%Z)], None);
  ([92;34;49;46;53;101;45;51;106;117;32;49;95]%N, [(true, mk_tok TOther [92]%N (1,0)%Z (1,1)%Z); (true, mk_tok TOther [34]%N (1,1)%Z (1,2)%Z); (false, mk_tok TOther [49;46;53;101;45;51;106]%N (1,2)%Z (1,9)%Z); (false, mk_tok TOther [117]%N (1,9)%Z (1,10)%Z); (false, mk_tok TOther [49]%N (1,11)%Z (1,12)%Z); (false, mk_tok TOther [95]%N (1,12)%Z (1,13)%Z); (false, mk_tok TNewline [] (1,13)%Z (1,14)%Z); (false, mk_tok TEnd [] (2,0)%Z (2,0)%Z)], None);
  ([10;32;32;32;32;120;45;117;48;120;103;39;97;92;10;98;39;117;114;233;125;95;97;49;48;49;50;61;49;95]%N, [(false, mk_tok TNl [10]%N (1,0)%Z (1,1)%Z); (false, mk_tok TIndent [32;32;32;32]%N (2,0)%Z (2,4)%Z); (false, mk_tok TOther [120]%N (2,4)%Z (2,5)%Z); (false, mk_tok TOther [45]%N (2,5)%Z (2,6)%Z); (false, mk_tok TOther [117;48;120;103]%N (2,6)%Z (2,10)%Z); (false, mk_tok TString [39;97;92;10;98;39]%N (2,10)%Z (3,2)%Z); (false, mk_tok TOther [117;114;233]%N (3,2)%Z (3,5)%Z); (false, mk_tok TOther [125]%N (3,5)%Z (3,6)%Z); (false, mk_tok TOther [95;97;49;48;49;50]%N (3,6)%Z (3,12)%Z); (false, mk_tok TOther [61]%N (3,12)%Z (3,13)%Z); (false, mk_tok TOther [49]%N (3,13)%Z (3,14)%Z); (false, mk_tok TOther [95]%N (3,14)%Z (3,15)%Z)], (Some TokenError));
  ([44;45]%N, [(false, mk_tok TOther [44]%N (1,0)%Z (1,1)%Z); (false, mk_tok TOther [45]%N (1,1)%Z (1,2)%Z); (false, mk_tok TNewline [] (1,2)%Z (1,3)%Z); (false, mk_tok TEnd [] (2,0)%Z (2,0)%Z)], None);
  ([98;82;95;97;49;45;62;48;95;48;115;101;108;101;99;116;32;97;10;126;39;39;39;49;46;53;101;45;51;106;10;120;102;9;126]%N, [(false, mk_tok TOther [98;82;95;97;49]%N (1,0)%Z (1,5)%Z); (false, mk_tok TOther [45;62]%N (1,5)%Z (1,7)%Z); (false, mk_tok TOther [48;95;48]%N (1,7)%Z (1,10)%Z); (false, mk_tok TOther [115;101;108;101;99;116]%N (1,10)%Z (1,16)%Z); (false, mk_tok TOther [97]%N (1,17)%Z (1,18)%Z); (false, mk_tok TNewline [10]%N (1,18)%Z (1,19)%Z); (false, mk_tok TOther [126]%N (2,0)%Z (2,1)%Z)], (Some TokenError));
  ([48;95;48;10;34;34]%N, [(false, mk_tok TOther [48;95;48]%N (1,0)%Z (1,3)%Z); (false, mk_tok TNewline [10]%N (1,3)%Z (1,4)%Z); (false, mk_tok TString [34;34]%N (2,0)%Z (2,2)%Z); (false, mk_tok TNewline [] (2,2)%Z (2,3)%Z); (false, mk_tok TEnd [] (3,0)%Z (3,0)%Z)], None);
  ([98;82;49;46;53;101;45;51;106]%N, [(false, mk_tok TOther [98;82;49]%N (1,0)%Z (1,3)%Z); (false, mk_tok TOther [46;53;101;45;51;106]%N (1,3)%Z (1,9)%Z); (false, mk_tok TNewline [] (1,9)%Z (1,10)%Z); (false, mk_tok TEnd [] (2,0)%Z (2,0)%Z)], None);
  ([39;97;39;48;98;49;50;102;39;120;39;92;13;10;10;32;32;32;32;32;32;32;32;102;49;101;53;117;114]%N, [(false, mk_tok TString [39;97;39]%N (1,0)%Z (1,3)%Z); (false, mk_tok TOther [48;98;49]%N (1,3)%Z (1,6)%Z); (false, mk_tok TOther [50]%N (1,6)%Z (1,7)%Z); (false, mk_tok TString [102;39;120;39]%N (1,7)%Z (1,11)%Z); (false, mk_tok TNewline [10]%N (2,0)%Z (2,1)%Z); (false, mk_tok TIndent [32;32;32;32;32;32;32;32]%N (3,0)%Z (3,8)%Z); (false, mk_tok TOther [102;49;101;53;117;114]%N (3,8)%Z (3,14)%Z); (false, mk_tok TNewline [] (3,14)%Z (3,15)%Z); (false, mk_tok TDedent [] (4,0)%Z (4,0)%Z); (false, mk_tok TEnd [] (4,0)%Z (4,0)%Z)], None);
  ([35;32;105;116;39;115;32;34;120;34;10;60;62;112;97;115;115]%N, [(false, mk_tok TComment [35;32;105;116;39;115;32;34;120;34]%N (1,0)%Z (1,10)%Z); (false, mk_tok TNl [10]%N (1,10)%Z (1,11)%Z); (false, mk_tok TOther [60]%N (2,0)%Z (2,1)%Z); (false, mk_tok TOther [62]%N (2,1)%Z (2,2)%Z); (false, mk_tok TOther [112;97;115;115]%N (2,2)%Z (2,6)%Z); (false, mk_tok TNewline [] (2,6)%Z (2,7)%Z); (false, mk_tok TEnd [] (3,0)%Z (3,0)%Z)], None);
  ([12;48;120;103;115;101;108;101;99;116;32;97;34;98;34;46;46;46;53;49;101;53;91]%N, [(false, mk_tok TOther [48]%N (1,1)%Z (1,2)%Z); (false, mk_tok TOther [120;103;115;101;108;101;99;116]%N (1,2)%Z (1,10)%Z); (false, mk_tok TOther [97]%N (1,11)%Z (1,12)%Z); (false, mk_tok TString [34;98;34]%N (1,12)%Z (1,15)%Z); (false, mk_tok TOther [46;46;46]%N (1,15)%Z (1,18)%Z); (false, mk_tok TOther [53;49;101;53]%N (1,18)%Z (1,22)%Z); (false, mk_tok TOther [91]%N (1,22)%Z (1,23)%Z)], (Some TokenError));
  ([92;10;32;10;32;32;32;32;32;32;32;32]%N, [(false, mk_tok TNewline [10]%N (2,1)%Z (2,2)%Z); (false, mk_tok TEnd [] (3,0)%Z (3,0)%Z)], None);
  ([10;32;32;32;32;32;32;32;32;49;101;43;48;95;48;92;63]%N, [(false, mk_tok TNl [10]%N (1,0)%Z (1,1)%Z); (false, mk_tok TIndent [32;32;32;32;32;32;32;32]%N (2,0)%Z (2,8)%Z); (false, mk_tok TOther [49;101;43;48;95;48]%N (2,8)%Z (2,14)%Z); (true, mk_tok TOther [92]%N (2,14)%Z (2,15)%Z); (true, mk_tok TOther [63]%N (2,15)%Z (2,16)%Z); (false, mk_tok TNewline [] (2,16)%Z (2,17)%Z); (false, mk_tok TDedent [] (3,0)%Z (3,0)%Z); (false, mk_tok TEnd [] (3,0)%Z (3,0)%Z)], None);
  ([46;46;49;46;53;39;97;92;10;98;39]%N, [(false, mk_tok TOther [46]%N (1,0)%Z (1,1)%Z); (false, mk_tok TOther [46;49]%N (1,1)%Z (1,3)%Z); (false, mk_tok TOther [46;53]%N (1,3)%Z (1,5)%Z); (false, mk_tok TString [39;97;92;10;98;39]%N (1,5)%Z (2,2)%Z); (false, mk_tok TNewline [] (2,2)%Z (2,3)%Z); (false, mk_tok TEnd [] (3,0)%Z (3,0)%Z)], None);
  ([41;13;10;10;34;34;43]%N, [(false, mk_tok TOther [41]%N (1,0)%Z (1,1)%Z); (false, mk_tok TNewline [13;10]%N (1,1)%Z (1,3)%Z); (false, mk_tok TNewline [10]%N (2,0)%Z (2,1)%Z); (false, mk_tok TString [34;34]%N (3,0)%Z (3,2)%Z); (false, mk_tok TOther [43]%N (3,2)%Z (3,3)%Z)], (Some TokenError));
  ([46;53;33;93]%N, [(false, mk_tok TOther [46;53]%N (1,0)%Z (1,2)%Z); (true, mk_tok TOther [33]%N (1,2)%Z (1,3)%Z); (false, mk_tok TOther [93]%N (1,3)%Z (1,4)%Z)], (Some TokenError));
  ([48;111;55;56;49;46;114;39;92;39]%N, [(false, mk_tok TOther [48;111;55]%N (1,0)%Z (1,3)%Z); (false, mk_tok TOther [56;49;46]%N (1,3)%Z (1,6)%Z); (false, mk_tok TOther [114]%N (1,6)%Z (1,7)%Z); (true, mk_tok TOther [39]%N (1,7)%Z (1,8)%Z); (true, mk_tok TOther [92]%N (1,8)%Z (1,9)%Z); (true, mk_tok TOther [39]%N (1,9)%Z (1,10)%Z); (false, mk_tok TNewline [] (1,10)%Z (1,11)%Z); (false, mk_tok TEnd [] (2,0)%Z (2,0)%Z)], None);
  ([9;59;49;101;53;74;48;59;39;97;92;10;98;39;50;106;10]%N, [(false, mk_tok TIndent [9]%N (1,0)%Z (1,1)%Z); (false, mk_tok TOther [59]%N (1,1)%Z (1,2)%Z); (false, mk_tok TOther [49;101;53;74]%N (1,2)%Z (1,6)%Z); (false, mk_tok TOther [48]%N (1,6)%Z (1,7)%Z); (false, mk_tok TOther [59]%N (1,7)%Z (1,8)%Z); (false, mk_tok TString [39;97;92;10;98;39]%N (1,8)%Z (2,2)%Z); (false, mk_tok TOther [50;106]%N (2,2)%Z (2,4)%Z); (false, mk_tok TNewline [10]%N (2,4)%Z (2,5)%Z); (false, mk_tok TDedent [] (3,0)%Z (3,0)%Z); (false, mk_tok TEnd [] (3,0)%Z (3,0)%Z)], None);
  ([12;125;10;32;32;32;32;10;48;48;117;114;112;97;115;115;10;32;32;32;32]%N, [(false, mk_tok TOther [125]%N (1,1)%Z (1,2)%Z); (false, mk_tok TNewline [10]%N (1,2)%Z (1,3)%Z); (false, mk_tok TNewline [10]%N (2,4)%Z (2,5)%Z); (false, mk_tok TOther [48;48]%N (3,0)%Z (3,2)%Z); (false, mk_tok TOther [117;114;112;97;115;115]%N (3,2)%Z (3,8)%Z); (false, mk_tok TNewline [10]%N (3,8)%Z (3,9)%Z)], (Some TokenError));
  ([49;101;49;46;49;49;101;53;46;10;48;49;50;112;97;115;115;39;97;39;92;110;48;98;49;50;49;95;48;48;120;49;70]%N, [(false, mk_tok TOther [49;101;49]%N (1,0)%Z (1,3)%Z); (false, mk_tok TOther [46;49;49;101;53]%N (1,3)%Z (1,8)%Z); (false, mk_tok TOther [46]%N (1,8)%Z (1,9)%Z); (false, mk_tok TNewline [10]%N (1,9)%Z (1,10)%Z); (false, mk_tok TOther [48]%N (2,0)%Z (2,1)%Z); (false, mk_tok TOther [49;50]%N (2,1)%Z (2,3)%Z); (false, mk_tok TOther [112;97;115;115]%N (2,3)%Z (2,7)%Z); (false, mk_tok TString [39;97;39]%N (2,7)%Z (2,10)%Z); (true, mk_tok TOther [92]%N (2,10)%Z (2,11)%Z); (false, mk_tok TOther [110;48;98;49;50;49;95;48;48;120;49;70]%N (2,11)%Z (2,23)%Z); (false, mk_tok TNewline [] (2,23)%Z (2,24)%Z); (false, mk_tok TEnd [] (3,0)%Z (3,0)%Z)], None);
  ([34;98;34;10;10]%N, [(false, mk_tok TString [34;98;34]%N (1,0)%Z (1,3)%Z); (false, mk_tok TNewline [10]%N (1,3)%Z (1,4)%Z); (false, mk_tok TNl [10]%N (2,0)%Z (2,1)%Z); (false, mk_tok TEnd [] (3,0)%Z (3,0)%Z)], None);
  ([35;10;32;32;32;32;9;233;92;10;43;39;97;39;125;34;34;34;97;10;98;34;34;34;46;46;46;48;48;41;45]%N, [(false, mk_tok TComment [35]%N (1,0)%Z (1,1)%Z); (false, mk_tok TNl [10]%N (1,1)%Z (1,2)%Z); (false, mk_tok TIndent [32;32;32;32;9]%N (2,0)%Z (2,5)%Z); (false, mk_tok TOther [233]%N (2,5)%Z (2,6)%Z); (false, mk_tok TOther [43]%N (3,0)%Z (3,1)%Z); (false, mk_tok TString [39;97;39]%N (3,1)%Z (3,4)%Z); (false, mk_tok TOther [125]%N (3,4)%Z (3,5)%Z); (false, mk_tok TString [34;34;34;97;10;98;34;34;34]%N (3,5)%Z (4,4)%Z); (false, mk_tok TOther [46;46;46]%N (4,4)%Z (4,7)%Z); (false, mk_tok TOther [48;48]%N (4,7)%Z (4,9)%Z); (false, mk_tok TOther [41]%N (4,9)%Z (4,10)%Z); (false, mk_tok TOther [45]%N (4,10)%Z (4,11)%Z)], (Some TokenError));
  ([45;98;82;32;32]%N, [(false, mk_tok TOther [45]%N (1,0)%Z (1,1)%Z); (false, mk_tok TOther [98;82]%N (1,1)%Z (1,3)%Z); (false, mk_tok TNewline [] (1,5)%Z (1,6)%Z); (false, mk_tok TEnd [] (2,0)%Z (2,0)%Z)], None);
  ([92;110;39;97;92;10;98;39;34;34;34;96;8364]%N, [(true, mk_tok TOther [92]%N (1,0)%Z (1,1)%Z); (false, mk_tok TOther [110]%N (1,1)%Z (1,2)%Z); (false, mk_tok TString [39;97;92;10;98;39]%N (1,2)%Z (2,2)%Z)], (Some TokenError));
  ([48;98;49;50;123;49;46;39;39;39;92;39;39;39;39;39;39;39;92;39;39;39;39]%N, [(false, mk_tok TOther [48;98;49]%N (1,0)%Z (1,3)%Z); (false, mk_tok TOther [50]%N (1,3)%Z (1,4)%Z); (false, mk_tok TOther [123]%N (1,4)%Z (1,5)%Z); (false, mk_tok TOther [49;46]%N (1,5)%Z (1,7)%Z); (false, mk_tok TString [39;39;39;92;39;39;39;39]%N (1,7)%Z (1,15)%Z); (false, mk_tok TString [39;39;39;92;39;39;39;39]%N (1,15)%Z (1,23)%Z)], (Some TokenError));
  ([10;32;32;32;32;32;32;32;32;62;61;117;49;46;53;101;45;51;106;10;10;34;34;34;10;48;49;101;53;74;10;32;32;32;32;35;32;105;116;39;115;32;34;120;34;10;12;42;42;61;36]%N, [(false, mk_tok TNl [10]%N (1,0)%Z (1,1)%Z); (false, mk_tok TIndent [32;32;32;32;32;32;32;32]%N (2,0)%Z (2,8)%Z); (false, mk_tok TOther [62;61]%N (2,8)%Z (2,10)%Z); (false, mk_tok TOther [117;49]%N (2,10)%Z (2,12)%Z); (false, mk_tok TOther [46;53;101;45;51;106]%N (2,12)%Z (2,18)%Z); (false, mk_tok TNewline [10]%N (2,18)%Z (2,19)%Z); (false, mk_tok TNl [10]%N (3,0)%Z (3,1)%Z); (false, mk_tok TDedent [] (4,0)%Z (4,0)%Z)], (Some TokenError));
  ([48;111;55;56;34;34;34;10;40;92;10;10;32;32;48;49;50;44;10;32;32;32;32;32;32;32;32;120;13;48;95;48;45;34;34]%N, [(false, mk_tok TOther [48;111;55]%N (1,0)%Z (1,3)%Z); (false, mk_tok TOther [56]%N (1,3)%Z (1,4)%Z)], (Some TokenError));
  ([114;98;233;34;48;95;48;123;44;92;39;8364]%N, [(false, mk_tok TOther [114;98;233]%N (1,0)%Z (1,3)%Z); (true, mk_tok TOther [34]%N (1,3)%Z (1,4)%Z); (false, mk_tok TOther [48;95;48]%N (1,4)%Z (1,7)%Z); (false, mk_tok TOther [123]%N (1,7)%Z (1,8)%Z); (false, mk_tok TOther [44]%N (1,8)%Z (1,9)%Z); (true, mk_tok TOther [92]%N (1,9)%Z (1,10)%Z); (true, mk_tok TOther [39]%N (1,10)%Z (1,11)%Z); (true, mk_tok TOther [8364]%N (1,11)%Z (1,12)%Z)], (Some TokenError));
  ([34;34;34;97;10;98;34;34;34;115;101;108;101;99;116;32;97;61;92;34;34;34;97;10;98;34;34;34;49;95;49;95;49;95;48;58;61;49;46;53;48;48;114;39;92;39]%N, [(false, mk_tok TString [34;34;34;97;10;98;34;34;34]%N (1,0)%Z (2,4)%Z); (false, mk_tok TOther [115;101;108;101;99;116]%N (2,4)%Z (2,10)%Z); (false, mk_tok TOther [97]%N (2,11)%Z (2,12)%Z); (false, mk_tok TOther [61]%N (2,12)%Z (2,13)%Z); (true, mk_tok TOther [92]%N (2,13)%Z (2,14)%Z); (false, mk_tok TString [34;34;34;97;10;98;34;34;34]%N (2,14)%Z (3,4)%Z); (false, mk_tok TOther [49;95;49;95;49;95;48]%N (3,4)%Z (3,11)%Z); (false, mk_tok TOther [58;61]%N (3,11)%Z (3,13)%Z); (false, mk_tok TOther [49;46;53;48;48]%N (3,13)%Z (3,18)%Z); (false, mk_tok TOther [114]%N (3,18)%Z (3,19)%Z); (true, mk_tok TOther [39]%N (3,19)%Z (3,20)%Z); (true, mk_tok TOther [92]%N (3,20)%Z (3,21)%Z); (true, mk_tok TOther [39]%N (3,21)%Z (3,22)%Z); (false, mk_tok TNewline [] (3,22)%Z (3,23)%Z); (false, mk_tok TEnd [] (4,0)%Z (4,0)%Z)], None);
  ([117;91;48;98;82;48]%N, [(false, mk_tok TOther [117]%N (1,0)%Z (1,1)%Z); (false, mk_tok TOther [91]%N (1,1)%Z (1,2)%Z); (false, mk_tok TOther [48]%N (1,2)%Z (1,3)%Z); (false, mk_tok TOther [98;82;48]%N (1,3)%Z (1,6)%Z)], (Some TokenError));
  ([34;34;34;49;95;95;48;47;47;61]%N, [], (Some TokenError));
  ([48;111;55;56;10;32;32;32;32;49;46;53;101;45;51;106]%N, [(false, mk_tok TOther [48;111;55]%N (1,0)%Z (1,3)%Z); (false, mk_tok TOther [56]%N (1,3)%Z (1,4)%Z); (false, mk_tok TNewline [10]%N (1,4)%Z (1,5)%Z); (false, mk_tok TIndent [32;32;32;32]%N (2,0)%Z (2,4)%Z); (false, mk_tok TOther [49;46;53;101;45;51;106]%N (2,4)%Z (2,11)%Z); (false, mk_tok TNewline [] (2,11)%Z (2,12)%Z); (false, mk_tok TDedent [] (3,0)%Z (3,0)%Z); (false, mk_tok TEnd [] (3,0)%Z (3,0)%Z)], None);
  ([48;62;60;62;233;35;32;105;116;39;115;32;34;120;34;10]%N, [(false, mk_tok TOther [48]%N (1,0)%Z (1,1)%Z); (false, mk_tok TOther [62]%N (1,1)%Z (1,2)%Z); (false, mk_tok TOther [60]%N (1,2)%Z (1,3)%Z); (false, mk_tok TOther [62]%N (1,3)%Z (1,4)%Z); (false, mk_tok TOther [233]%N (1,4)%Z (1,5)%Z); (false, mk_tok TComment [35;32;105;116;39;115;32;34;120;34]%N (1,5)%Z (1,15)%Z); (false, mk_tok TNewline [10]%N (1,15)%Z (1,16)%Z); (false, mk_tok TEnd [] (2,0)%Z (2,0)%Z)], None);
  ([35;32;105;116;39;115;32;34;120;34;10;125]%N, [(false, mk_tok TComment [35;32;105;116;39;115;32;34;120;34]%N (1,0)%Z (1,10)%Z); (false, mk_tok TNl [10]%N (1,10)%Z (1,11)%Z); (false, mk_tok TOther [125]%N (2,0)%Z (2,1)%Z)], (Some TokenError));
  ([92;10;32]%N, [(false, mk_tok TNewline [] (2,1)%Z (2,2)%Z); (false, mk_tok TEnd [] (3,0)%Z (3,0)%Z)], None);
  ([233;93;46;53;10;49;95;233;92;10]%N, [(false, mk_tok TOther [233]%N (1,0)%Z (1,1)%Z); (false, mk_tok TOther [93]%N (1,1)%Z (1,2)%Z); (false, mk_tok TOther [46;53]%N (1,2)%Z (1,4)%Z); (false, mk_tok TNewline [10]%N (1,4)%Z (1,5)%Z); (false, mk_tok TOther [49]%N (2,0)%Z (2,1)%Z); (false, mk_tok TOther [95;233]%N (2,1)%Z (2,3)%Z)], (Some TokenError))].
Example test_tokenize : forallb ok cases = true.
Proof. vm_compute. reflexivity. Qed.
