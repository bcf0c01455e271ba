(** The regular expressions that elements of the parsing engine are turned into: __regex__ of parsing/*.py, and how Python's re reads their texts. *)
From Coq Require Import String Ascii List Arith NArith Bool.
From Verif Require Import Base EngineModel EngineSqlModel WhiteModel RegexModel.
Import ListNotations.

(** A pattern as a list of signs: pieces that stand for themselves (an escaped character, a class in brackets, a dot, .*?, a look-behind or look-ahead of one
    class), an opening parenthesis, (?: or (, a closing one, | and a repetition *, +, {n}, {n,}, {n,m}.  The escapes of characters are not modelled. *)
Inductive sgn := Piece (r : re) | Open | Close | Bar | Rep (least : nat) (most : option nat).
(** Elements.  [Atom]: Char (tokens.py L454), AnyChar (L108), SingleCharLiteral (L172).  [Lit]: Literal (L145).  [Pat]: Regex (parsing/regex.py L364-366)
    with the pattern of [e].  Others are left out: keywords, words, Empty, line and string ends, NotAny, and Many with stop_on. *)
Inductive el :=
| Atom (r : re) | Lit (w : pystr) | AndE (l : list el) | FirstE (l : list el) | ManyE (least : nat) (most : option nat) (e : el)
| SkipE (include : bool) (e : el) | Pat (e : el).

(** _prec, utils.py L77; regex_iso, L91-98. *)
Inductive prec := PBar | PPlus | PStar.
Definition level (p : prec) : nat := match p with PBar => 0 | PPlus => 1 | PStar => 2 end.
Definition iso (p : prec) (t : list sgn) (q : prec) : list sgn := if level p <? level q then Open :: t ++ [Close] else t.
(** Many.__regex__, enhancement.py L340-366: the suffix. *)
Definition suffix (least : nat) (most : option nat) : list sgn :=
  match most with Some 1 => if least =? 1 then [] else [Rep least most] | _ => [Rep least most] end.
Fixpoint bars (l : list (list sgn)) : list sgn := match l with [] => [] | [t] => t | t :: l => t ++ Bar :: bars l end.
Definition any_piece : sgn := Piece (Lazy (Cls (fun _ => true))).
(** __regex__ of each element: Literal tokens.py L145-146, And expressions.py L307-308, MatchFirst L550-558, Many, SkipTo enhancement.py L504-510. *)
Fixpoint regex (e : el) : prec * list sgn :=
  match e with
  | Atom r => (PStar, [Piece r])
  | Lit w => (PPlus, map (fun c => Piece (is c)) w)
  | AndE l => (PPlus, flat_map (fun e => let (p, t) := regex e in iso p t PPlus) l)
  | FirstE l => (PBar, bars (map (fun e => let (p, t) := regex e in iso p t PBar) l))
  | ManyE least most e => let (p, t) := regex e in (PStar, iso p t PStar ++ suffix least most)
  | SkipE include e =>
    let (p, t) := regex e in
    if include then (PStar, Open :: any_piece :: iso p t PPlus ++ [Close]) else (PPlus, Open :: any_piece :: Close :: iso p t PPlus)
  | Pat e => (PBar, snd (regex e))
  end.
(** Whitespace.__regex__, whitespaces.py L164-173, with white space and comments. *)
Definition white_regex (ws : pystr) (ignored : list el) : prec * list sgn :=
  let w := [Piece (Cls (fun c => existsb (N.eqb c) ws)); Rep 0 None] in
  match ignored with
  | [] => (PStar, w)
  | _ => (PPlus, Open :: w ++ Open :: bars (map (fun e => let (p, t) := regex e in iso p t PBar) ignored) ++ Close :: Close :: Rep 0 None :: w)
  end.

(** How re reads a pattern: for each open parenthesis the alternatives before, the pieces since the last |, and whether a repetition may follow
    (otherwise: re.error, multiple repeat or nothing to repeat). *)
Fixpoint seql (l : list re) : re := match l with [] => Eps | r :: l => Seq r (seql l) end.
Fixpoint altl (l : list re) : re := match l with [] => Cls (fun _ => false) | [r] => r | r :: l => Alt r (altl l) end.
Fixpoint times (n : nat) (r : re) : re := match n with O => Eps | S n => Seq r (times n r) end.
Fixpoint upto (n : nat) (r : re) : re := match n with O => Eps | S n => opt (Seq r (upto n r)) end.
Definition repeated (least : nat) (most : option nat) (r : re) : re :=
  Seq (times least r) (match most with None => Star r | Some m => upto (m - least) r end).
Definition frame := (list re * list re * bool)%type.
Definition closed (f : frame) : re := let '(A, c, _) := f in altl (A ++ [seql c]).
Definition sign_step (t : sgn) (st : list frame) : option (list frame) :=
  match t, st with
  | Piece r, (A, c, _) :: st => Some ((A, c ++ [r], true) :: st)
  | Open, st => Some (([], [], false) :: st)
  | Close, f :: (A, c, _) :: st => Some ((A, c ++ [closed f], true) :: st)
  | Bar, (A, c, _) :: st => Some ((A ++ [seql c], [], false) :: st)
  | Rep least most, (A, c, true) :: st =>
    if match most with None => true | Some m => least <=? m end then Some ((A, removelast c ++ [repeated least most (last c Eps)], false) :: st) else None
  | _, _ => None
  end.
Fixpoint signs_run (t : list sgn) (st : list frame) : option (list frame) :=
  match t with [] => Some st | x :: t => match sign_step x st with Some st => signs_run t st | None => None end end.
Definition compile (t : list sgn) : option re :=
  match signs_run t [([], [], false)] with Some [f] => Some (closed f) | _ => None end.
