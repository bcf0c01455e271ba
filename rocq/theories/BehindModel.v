(** What stands before a place: PrecededBy of parsing/enhancement.py L878-941, StringEnd of parsing/tokens.py L694-717. *)
From Coq Require Import List Arith NArith Bool.
From Verif Require Import Base SkipToModel.
Import ListNotations.

(** An expression, as its _parse (parsing/core.py L452-469) is seen here: in a text, at a place, the end of what it takes, or None for the ParseException. *)
Definition texpr := pystr -> nat -> option nat.
(** str.startswith, parsing/tokens.py L131. *)
Fixpoint starts_with (w s : pystr) : bool :=
  match w, s with [], _ => true | c :: w, d :: s => N.eqb c d && starts_with w s | _ :: _, [] => false end.
(** Literal.parse_impl, parsing/tokens.py L129-134. *)
Definition literal (w : pystr) : texpr := fun s loc => if starts_with w (skipn loc s) then Some (loc + length w) else None.
(** What __init__ tells apart, L909-916: Literal, Keyword or Char; an expression without length; any other.  The number is min_length. *)
Inductive kind := Fixed (n : nat) | Zero | Other (n : nat).
(** What it sets, L909-916: the offset and exact.  The parameter retreat is not used, as in the code. *)
Definition config (k : kind) (retreat : option nat) : nat * bool :=
  match k with Fixed n => (n, true) | Zero => (0, true) | Other n => (n, false) end.
(** "(?:\r?\n)*$" of StringEnd, tokens.py L705: what is left is line feeds, each with or without a carriage return. *)
Fixpoint only_newlines (s : pystr) : bool :=
  match s with
  | [] => true
  | c :: r => if N.eqb c 10 then only_newlines r else if N.eqb c 13 then match r with d :: _ => N.eqb d 10 && only_newlines r | [] => false end else false
  end.
(** expr + StringEnd(), L926: white space between the two is skipped if the first takes something (And.parse_impl, expressions.py L252-285).
    Simplified: the white space is that of a predicate on characters. *)
Definition then_end (blank : N -> bool) (e : texpr) (cut : pystr) (loc : nat) : bool :=
  match e cut loc with Some end_ => only_newlines (skipn (if Nat.ltb loc end_ then skip blank cut end_ else loc) cut) | None => false end.
(** The loop, L930-937, over the offsets: the place where the expression was found. *)
Fixpoint behind_loop (blank : N -> bool) (e : texpr) (cut : pystr) (start : nat) (offsets : list nat) : option nat :=
  match offsets with
  | [] => None
  | offset :: offsets => if then_end blank e cut (start - offset) then Some (start - offset) else behind_loop blank e cut start offsets
  end.
(** parse_impl, L918-941: the place where the expression was found, or None for the ParseException. *)
Definition preceded_by (blank : N -> bool) (k : kind) (retreat : option nat) (e : texpr) (s : pystr) (start : nat) : option nat :=
  let (retreat, exact) := config k retreat in
  if exact : bool then
    if Nat.ltb start retreat then None else match e s (start - retreat) with Some _ => Some (start - retreat) | None => None end
  else behind_loop blank e (firstn start s) start (seq retreat (start + 1 - retreat)).
