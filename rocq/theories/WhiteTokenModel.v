(** White space that counts: White of parsing/tokens.py L536-605. *)
From Coq Require Import String Ascii List Arith NArith Bool.
From Verif Require Import Base RangeModel.
Import ListNotations.

(** The keys of white_strs, L547-571, as Python reads them: a backslash and up to three octal digits are one character. *)
Definition white_keys : list pystr :=
  [ [32]; [9]; [10]; [13]; [12];
    [117; 0; 65; 48]; [117; 14; 56; 48]; [117; 1; 56; 48; 69];
    [117; 128; 48]; [117; 128; 49]; [117; 128; 50]; [117; 128; 51]; [117; 128; 52]; [117; 128; 53];
    [117; 128; 54]; [117; 128; 55]; [117; 128; 56]; [117; 128; 57]; [117; 128; 65]; [117; 128; 66];
    [117; 130; 70]; [117; 133; 70]; [117; 192; 48] ]%N.
(** White.white_strs[c] is no KeyError, L579. *)
Definition named (c : N) : bool := smem [c] white_keys.
(** Config, L574; the white characters are sorted. *)
Record config := { min_len : nat; max_len : option nat; white_chars : pystr }.
(** __init__, L576-585: None is the KeyError of L579; no maximum is None. *)
Definition white_init (ws : pystr) (min max exact : nat) : option config :=
  let chars := sorted_set ws in
  if forallb named chars then
    let max := if Nat.ltb 0 max then Some max else None in
    let (min, max) := if Nat.ltb 0 exact then (exact, Some exact) else (min, max) in
    Some {| min_len := min; max_len := max; white_chars := chars |}
  else None.
(** What parse_impl does, L588-602: the end and the text, a ParseException with its place, or an IndexError. *)
Inductive outcome := Taken (end_ : nat) (text : pystr) | Fails (loc : nat) | IndexErr.
(** string[start] in white_chars, L588, L594. *)
Definition white (cfg : config) (c : N) : bool := existsb (N.eqb c) (white_chars cfg).
(** The loop, L594-595; rest is string[end:]. *)
Fixpoint white_loop (cfg : config) (maxloc end_ : nat) (rest : pystr) : nat :=
  match rest with
  | c :: rest => if Nat.ltb end_ maxloc && white cfg c then white_loop cfg maxloc (S end_) rest else end_
  | [] => end_
  end.
(** parse_impl, L587-602. *)
Definition white_parse (cfg : config) (s : pystr) (start : nat) : outcome :=
  match nth_error s start with
  | None => IndexErr
  | Some c =>
    if white cfg c then
      let maxloc := match max_len cfg with Some m => Nat.min (start + m) (length s) | None => length s end in
      let end_ := white_loop cfg maxloc (start + 1) (skipn (start + 1) s) in
      if Nat.ltb (end_ - start) (min_len cfg) then Fails end_ else Taken end_ (firstn (end_ - start) (skipn start s))
    else Fails start
  end.
