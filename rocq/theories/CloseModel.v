(** Texts that differ in a few characters: CloseMatch.parse_impl of parsing/tokens.py L301-326. *)
From Coq Require Import String Ascii List Arith NArith Bool.
From Verif Require Import Base.
Import ListNotations.

(** The loop, L312-318; None is the break. *)
Fixpoint compare_loop (max i : nat) (mismatches : list nat) (src mat : pystr) : option (list nat) :=
  match src, mat with
  | c :: src, d :: mat =>
    if N.eqb c d then compare_loop max (S i) mismatches src mat
    else if Nat.ltb max (length (mismatches ++ [i])) then None else compare_loop max (S i) (mismatches ++ [i]) src mat
  | _, _ => Some mismatches
  end.
(** string[from:to], L313, L321. *)
Definition slice (s : pystr) (from to : nat) : pystr := skipn from (firstn to s).
(** parse_impl, L301-326: end, the matched text and the mismatches, or failure.  match_stringloc is 0 if the loop does not run. *)
Definition close_match (m : pystr) (max : nat) (s : pystr) (start : nat) : option (nat * pystr * list nat) :=
  let maxloc := start + length m in
  if Nat.leb maxloc (length s) then
    match compare_loop max 0 [] (slice s start maxloc) m with
    | Some mismatches => let end_ := (length m - 1) + 1 in Some (end_, slice s start end_, mismatches)
    | None => None
    end
  else None.
