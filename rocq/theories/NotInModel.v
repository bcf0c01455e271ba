(** Words of characters that are not in a list: CharsNotIn of parsing/tokens.py L461-533. *)
From Coq Require Import String Ascii List Arith NArith ZArith Bool.
From Verif Require Import Base RangeModel.
Import ListNotations.

(** The class, L478, L491-494. *)
Definition not_class (chars : pystr) : pystr :=
  let not_chars := sorted_set chars in
  if Nat.eqb (length not_chars) 1 then u "[^" ++ regex_range not_chars false ++ u "]" else u "[^" ++ tl (regex_range not_chars false).
(** The suffix, L486-489, L496-506; None is no maximum.  exact is min and max. *)
Definition suffix (min : nat) (max : option nat) : pystr :=
  match max with
  | None => if Nat.eqb min 0 then u "*" else if Nat.eqb min 1 then u "+" else u "{" ++ str_int (Z.of_nat min) ++ u ":}"
  | Some max => if Nat.eqb min 1 && Nat.eqb max 1 then [] else u "{" ++ str_int (Z.of_nat min) ++ u ":" ++ str_int (Z.of_nat max) ++ u "}"
  end.
(** The constructor, L476-514: None is the ValueError of L480-484; max = 0 is no maximum and exact = 0 is no exact length.
    Simplified: a maximum that equals MAX_INT, which L496 takes for none, is read as any other; the bounds are not negative. *)
Definition chars_not_in (chars : pystr) (min max exact : nat) : option pystr :=
  if Nat.ltb min 1 then None else
  let max := if Nat.ltb 0 max then Some max else None in
  let (min, max) := if Nat.eqb exact 0 then (min, max) else (exact, Some exact) in
  Some (not_class chars ++ suffix min max).
