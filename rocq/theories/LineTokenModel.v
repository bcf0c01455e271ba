(** Beginnings and ends of lines: LineStart and LineEnd of parsing/tokens.py L608-665. *)
From Coq Require Import String Ascii List Arith NArith Bool.
From Verif Require Import Base ErrPosModel.
Import ListNotations.

(** LineStart.parse_impl, L621-624: the end, or None for the ParseException. *)
Definition line_start (s : pystr) (start : nat) : option nat := if Nat.eqb (col start s) 1 then Some start else None.
(** LineStart.__regex__, L632-633: "^", compiled by regex_compile (parsing/utils.py L80-83) without MULTILINE, matches only where the text begins. *)
Definition line_start_regex (s : pystr) (start : nat) : option nat := if Nat.eqb start 0 then Some start else None.
(** "$" of L650 without MULTILINE: the end of the text, or before a line feed that ends it. *)
Definition dollar (rest : pystr) : bool := match rest with [] => true | [c] => N.eqb c 10 | _ => false end.
(** "(\n|$)" of L650: how many characters it takes of the rest. *)
Definition nl_or_end (rest : pystr) : option nat :=
  match rest with
  | c :: _ => if N.eqb c 10 then Some 1 else if dollar rest then Some 0 else None
  | [] => Some 0
  end.
(** "\r?(\n|$)", L650: with the carriage return first, then without it. *)
Definition line_end_match (rest : pystr) : option nat :=
  let without := nl_or_end rest in
  match rest with
  | c :: r => if N.eqb c 13 then match nl_or_end r with Some n => Some (S n) | None => without end else without
  | [] => without
  end.
(** LineEnd.parse_impl, L652-656: the end, or None for the ParseException. *)
Definition line_end (s : pystr) (start : nat) : option nat := option_map (Nat.add start) (line_end_match (skipn start s)).
