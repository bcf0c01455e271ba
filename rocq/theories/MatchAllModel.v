(** Elements in any order: MatchAll.parse_impl of parsing/expressions.py L756-808.  Not modelled: that what was found is parsed again (L810-824). *)
From Coq Require Import List Arith Bool.
Import ListNotations.

(** An element with min_match and max_match (L722-730): at a place, the end of what it takes, or None for the ParseException.  No maximum is None. *)
Record elem := { run : nat -> option nat; mi : nat; ma : option nat }.
(** An entry of todo and count, L759-762: the element by its place in exprs, which stands for id(e), how often it was found, the element. *)
Definition item : Type := nat * nat * elem.
(** c2 >= ma, L774. *)
Definition reached (m : option nat) (c : nat) : bool := match m with Some m => Nat.leb m c | None => false end.
(** One pass of the for, L765-782: what is left to do, the element that was found and its end; None is the else. *)
Fixpoint round (todo : list item) (end_ : nat) : option (list item * nat * nat) :=
  match todo with
  | [] => None
  | (i, c, e) :: r =>
    let next := match round r end_ with Some (r', j, loc) => Some ((i, c, e) :: r', j, loc) | None => None end in
    match run e end_ with
    | Some loc => if Nat.eqb loc end_ then next else Some (if reached (ma e) (S c) then r else (i, S c, e) :: r, i, loc)
    | None => next
    end
  end.
(** The while, L764-782; None is no fuel. *)
Fixpoint rounds (fuel : nat) (skip : nat -> nat) (todo : list item) (end_ : nat) (order : list nat) : option (list item * nat * list nat) :=
  match fuel with
  | 0 => None
  | S fuel =>
    match round todo end_ with
    | Some (todo', j, loc) => rounds fuel skip todo' (skip loc) (order ++ [j])
    | None => Some (todo, end_, order)
    end
  end.
(** What comes out by L808: the elements in the order found and the end, or the ParseException of L786 or that of L802. *)
Inductive outcome := Order (order : list nat) (end_ : nat) | TooFew | Missing | NoFuel.
(** todo and count at first, L759-762. *)
Fixpoint items (i : nat) (es : list elem) : list item := match es with [] => [] | e :: es => (i, 0, e) :: items (S i) es end.
(** parse_impl, L756-808. *)
Definition match_all (fuel : nat) (skip : nat -> nat) (es : list elem) (start : nat) : outcome :=
  match rounds fuel skip (items 0 es) start [] with
  | None => NoFuel
  | Some (todo, end_, order) =>
    if existsb (fun x : item => let '(_, c, e) := x in Nat.ltb c (mi e)) todo then TooFew
    else if existsb (fun x : item => let '(i, _, e) := x in negb (existsb (Nat.eqb i) order) && Nat.ltb 0 (mi e)) (items 0 es) then Missing
    else Order order end_
  end.
