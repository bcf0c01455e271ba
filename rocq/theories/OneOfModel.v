(** A choice of texts: one_of of parsing/infix.py L46-121, without as_keyword. *)
From Coq Require Import String Ascii List Arith NArith Bool.
From Verif Require Import Base RangeModel.
Import ListNotations.

(** str.startswith, L70, L74. *)
Fixpoint startswith (t p : pystr) : bool :=
  match p, t with [], _ => true | c :: p, d :: t => N.eqb c d && startswith t p | _ :: _, [] => false end.
(** str.upper and str.lower, L69-70 and parsing/utils.py L105-106; simplified: letters of ASCII only. *)
Definition upper1 (c : N) : N := if (97 <=? c)%N && (c <=? 122)%N then (c - 32)%N else c.
Definition lower1 (c : N) : N := if (65 <=? c)%N && (c <=? 90)%N then (c + 32)%N else c.
(** What isequal and masks compare, L68-75: the text or its capitals. *)
Definition key (caseless : bool) (s : pystr) : pystr := if caseless then map upper1 s else s.
Definition isequal (caseless : bool) (a b : pystr) : bool := seqb (key caseless a) (key caseless b).
Definition masks (caseless : bool) (a b : pystr) : bool := startswith (key caseless b) (key caseless a).

(** The inner loop, L97-104: the first later symbol that is equal to cur or masked by it, if it is masked only, and the symbols without it. *)
Fixpoint scan (caseless : bool) (cur : pystr) (later : list pystr) : option (option pystr * list pystr) :=
  match later with
  | [] => None
  | other :: r =>
    if isequal caseless other cur then Some (None, r)
    else if masks caseless cur other then Some (Some other, r)
    else match scan caseless cur r with Some (m, r) => Some (m, other :: r) | None => None end
  end.
(** The outer loop, L93-106: symbols[:i] and symbols[i:]; None is running out of fuel. *)
Fixpoint reorder (fuel : nat) (caseless : bool) (before from : list pystr) : option (list pystr) :=
  match fuel with
  | O => None
  | S fuel =>
    match from with
    | [] => Some before
    | [s] => Some (before ++ [s])
    | cur :: later =>
      match scan caseless cur later with
      | Some (None, later) => reorder fuel caseless before (cur :: later)
      | Some (Some other, later) => reorder fuel caseless before (other :: cur :: later)
      | None => reorder fuel caseless (before ++ [cur]) later
      end
    end
  end.
Definition ordered (caseless : bool) (symbols : list pystr) : option (list pystr) :=
  reorder ((length symbols + 1) * (length symbols + 1) + 1) caseless [] symbols.

(** re.escape, L116; the characters that it escapes. *)
Definition re_specials : pystr := u "()[]{}?*+-|^$\.&~# " ++ [9; 10; 13; 11; 12]%N.
Definition re_escape (s : pystr) : pystr := flat_map (fun c => if existsb (N.eqb c) re_specials then [92%N; c] else [c]) s.
(** sorted(..., key=lambda s: -len(s)), L113: stable. *)
Fixpoint put (s : pystr) (l : list pystr) : list pystr :=
  match l with [] => [s] | t :: r => if Nat.leb (length t) (length s) then s :: l else t :: put s r end.
Definition longest_first (l : list pystr) : list pystr := fold_right put [] l.
(** The pattern, L111-119. *)
Definition single (s : pystr) : bool := Nat.eqb (length s) 1.
Definition pattern (symbols : list pystr) : pystr :=
  let singles := filter single symbols in
  let rest := longest_first (filter (fun s => negb (single s)) symbols) in
  join (u "|") (map re_escape rest ++ match singles with [] => [] | _ => [regex_range (concat singles) false] end).
(** one_of without caseless: the text of the pattern; L88-89: no symbols, no match. *)
Definition one_of (symbols : list pystr) : option pystr := option_map pattern (ordered false symbols).

(** regex_caseless of parsing/utils.py L101-110, character by character, and CaselessLiteral.parse_impl of parsing/tokens.py L259-265: how
    many characters are taken.  Simplified: the classes are not written as text. *)
Fixpoint literal (s t : pystr) : bool :=
  match s, t with
  | [], _ => true
  | c :: s, d :: t => (N.eqb d (lower1 c) || N.eqb d (upper1 c)) && literal s t
  | _ :: _, [] => false
  end.
(** one_of with caseless, L108-109: MatchFirst takes the first that matches. *)
Definition one_of_caseless (symbols : list pystr) (t : pystr) : option (option nat) :=
  option_map (fun l => option_map (@length N) (find (fun s => literal s t) l)) (ordered true symbols).
