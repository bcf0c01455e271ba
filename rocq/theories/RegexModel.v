(** Regular expressions as Python's module re runs them: alternatives in order, repetitions as long as possible, going back when what follows fails;
    and the regular expressions of the SQL grammar and of its white space. *)
From Coq Require Import String Ascii List Arith NArith Bool.
From Verif Require Import Base EngineModel EngineSqlModel WhiteModel.
Import ListNotations.

(** The patterns that are used: one character, sequence, |, *, *?, and look-behind and look-ahead of one character. *)
Inductive re := Eps | Cls (p : N -> bool) | Seq (a b : re) | Alt (a b : re) | Star (a : re) | Lazy (a : re) | Behind (p : N -> bool) | Ahead (p : N -> bool).
(** A place in a text: the character before it and the characters after it. *)
Definition place := (option N * pystr)%type.
(** The places where a match may end, in the order in which they are tried. *)
Fixpoint ends (r : re) (x : place) : list place :=
  match r with
  | Eps => [x]
  | Cls p => match snd x with c :: t => if p c then [(Some c, t)] else [] | [] => [] end
  | Seq a b => flat_map (ends b) (ends a x)
  | Alt a b => ends a x ++ ends b x
  | Star a =>
    (fix go (n : nat) (x : place) : list place :=
       match n with
       | O => [x]
       | S n' => flat_map (fun y => if length (snd y) <? length (snd x) then go n' y else []) (ends a x) ++ [x]
       end) (length (snd x)) x
  | Lazy a =>
    (fix go (n : nat) (x : place) : list place :=
       match n with
       | O => [x]
       | S n' => x :: flat_map (fun y => if length (snd y) <? length (snd x) then go n' y else []) (ends a x)
       end) (length (snd x)) x
  | Behind p => match fst x with Some c => if p c then [x] else [] | None => [] end
  | Ahead p => match snd x with c :: _ => if p c then [x] else [] | [] => [] end
  end.
(** re.match at a place: the number of characters of the first match. *)
Definition re_match (r : re) (x : place) : option nat := option_map (fun y => length (snd x) - length (snd y)) (hd_error (ends r x)).

Definition is (c : N) : re := Cls (N.eqb c).
Definition one_of (s : string) : re := Cls (fun c => existsb (N.eqb c) (u s)).
Definition opt (a : re) : re := Alt a Eps.
Definition plus (a : re) : re := Seq a (Star a).
Fixpoint word (w : pystr) : re := match w with [] => Eps | [c] => is c | c :: w => Seq (is c) (word w) end.
(** \d and [^ 0-9], of ASCII digits. *)
Definition d : re := Cls digit.
(** sql_parsing/utils.py L593: [+-]?(\d+\.\d*|\.\d+)([eE][+-]?\d+)? *)
Definition real_re : re :=
  Seq (opt (one_of "+-")) (Seq (Alt (Seq (plus d) (Seq (one_of ".") (Star d))) (Seq (one_of ".") (plus d)))
                               (opt (Seq (one_of "eE") (Seq (opt (one_of "+-")) (plus d))))).
(** L605: [+-]?\d+([eE]\+?\d+)? *)
Definition int_re : re := Seq (opt (one_of "+-")) (Seq (plus d) (opt (Seq (one_of "eE") (Seq (opt (one_of "+")) (plus d))))).
(** L607: 0x[0-9a-fA-F]+ *)
Definition hex_re : re :=
  Seq (is 48) (Seq (is 120) (plus (Cls (fun c => digit c || ((65 <=? c) && (c <=? 70)) || ((97 <=? c) && (c <=? 102)))%N))).
(** L611-617: an opening character, then doubled closing characters or others, then the closing character. *)
Definition quoted_re (o q : N) : re := Seq (is o) (Seq (Star (Alt (Seq (is q) (is q)) (Cls (fun c => negb (N.eqb c q))))) (is q)).
(** sql_parser.py L33-37: [first]((?<=[^ 0-9])\-(?=[^ 0-9])|[all])* *)
Definition ident_re : re := Seq (Cls first_char) (Star (Alt (Seq (Behind joint) (Seq (is 45) (Ahead joint))) (Cls ident_char))).
(** parsing/whitespaces.py L165-173, expressions.py L307-308, helpers.py L790, enhancement.py L504-508: (?:W*(?:I|...|I))*W* *)
Definition ignored_re (g : ignored) : re :=
  match g with
  | Line p => Seq (word p) (Star (Cls (fun c => negb (N.eqb c 10))))
  | Block p q => Seq (word p) (Seq (Lazy (Cls (fun _ => true))) (word q))
  end.
Fixpoint any_re (gs : list ignored) : re := match gs with [] => Cls (fun _ => false) | [g] => ignored_re g | g :: gs => Alt (ignored_re g) (any_re gs) end.
Definition white_re (ws : pystr) (gs : list ignored) : re :=
  let w := Star (Cls (fun c => existsb (N.eqb c) ws)) in match gs with [] => w | _ => Seq (Star (Seq w (any_re gs))) w end.
