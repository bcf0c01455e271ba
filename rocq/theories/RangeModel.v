(** Classes of characters in patterns: regex_range of parsing/utils.py L113-149. *)
From Coq Require Import String Ascii List Arith NArith Bool.
From Verif Require Import Base.
Import ListNotations.

(** _escapes, L113-114; esc, L118-119. *)
Definition specials : pystr := u ".^$*?+-{}[]\|()".
Definition esc (c : N) : pystr :=
  if N.eqb c 10 then u "\n" else if N.eqb c 13 then u "\r" else if N.eqb c 9 then u "\t"
  else if existsb (N.eqb c) specials then [92%N; c] else [c].
(** sorted(set(s)), L132. *)
Fixpoint insert (c : N) (l : pystr) : pystr :=
  match l with [] => [c] | d :: r => if N.eqb c d then l else if N.ltb c d then c :: l else d :: insert c r end.
Definition sorted_set (s : pystr) : pystr := fold_right insert [] s.
(** The loop, L129-146: what is appended to acc. *)
Fixpoint ranges (start prev : option N) (l : pystr) : pystr :=
  match l with
  | [] => []
  | c :: r =>
    if match prev with Some p => N.eqb (p + 1) c | None => false end then ranges (match start with None => prev | Some _ => start end) (Some c) r
    else
      match start, prev with
      | Some s, Some p => (if N.eqb s p then esc p else esc s ++ u "-" ++ esc p) ++ ranges None (Some c) r
      | None, Some p => esc p ++ ranges None (Some c) r
      | _, None => ranges None (Some c) r
      end
  end.
(** regex_range, L117-149; "\a" is character 7. *)
Definition regex_range (s : pystr) (exclude : bool) : pystr :=
  match s with
  | [] => []
  | [c] => if exclude then u "[^" ++ esc c ++ u "]" else esc c
  | _ => (if exclude then u "[^" else u "[") ++ ranges None None (sorted_set s ++ [7%N]) ++ u "]"
  end.
