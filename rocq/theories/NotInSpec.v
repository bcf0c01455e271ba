(** How Python's re reads a class with what follows it, and runs it. *)
From Coq Require Import String Ascii List Arith NArith Bool.
From Verif Require Import Base RangeSpec.
Import ListNotations.

Inductive kind := Once | Plus | Star | Counted (lo hi : pystr) | Text (t : pystr).
Definition is_digit (c : N) : bool := ((48 <=? c) && (c <=? 57))%N.
Fixpoint span (s : pystr) : pystr * pystr :=
  match s with c :: r => if is_digit c then (c :: fst (span r), snd (span r)) else ([], s) | [] => ([], []) end.
(** A brace begins a repetition only if digits, or digits and a comma and digits, and the closing brace follow; else it is a character. *)
Definition read_suffix (q : pystr) : option kind :=
  match q with
  | [] => Some Once
  | c :: r =>
    if N.eqb c 43 then match r with [] => Some Plus | _ => None end
    else if N.eqb c 42 then match r with [] => Some Star | _ => None end
    else if N.eqb c 123 then
      let (lo, r1) := span r in
      let (hi, r2) := match r1 with d :: r' => if N.eqb d 44 then span r' else (lo, r1) | [] => (lo, []) end in
      match r2 with [d] => if N.eqb d 125 then Some (Counted lo hi) else Some (Text q) | _ => Some (Text q) end
    else None
  end.
(** A class followed by a suffix. *)
Definition reads (t : pystr) (f : N -> bool) (k : kind) : Prop := exists p q, t = p ++ q /\ one_char p = Some f /\ read_suffix q = Some k.
(** How many characters are taken, all that can be: a relation.  The other kinds are not needed: no pattern of CharsNotIn is read as one. *)
Inductive taken (f : N -> bool) : kind -> pystr -> nat -> Prop :=
| taken_once c r : f c = true -> taken f Once (c :: r) 1
| taken_plus w r : w <> [] -> Forall (fun c => f c = true) w -> (match r with c :: _ => f c = false | [] => True end) -> taken f Plus (w ++ r) (length w)
| taken_text c q r : f c = true -> taken f (Text q) (c :: q ++ r) (1 + length q).
