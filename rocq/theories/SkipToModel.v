(** Text skipped until something is found: SkipTo.parse_impl of parsing/enhancement.py L512-564.  Simplified: no ignored expressions
    (ignore is None, L529-539 are not run); white space is skipped by a predicate on characters. *)
From Coq Require Import List Arith NArith Bool.
From Verif Require Import Base.
Import ListNotations.

(** An expression, as its _parse (parsing/core.py L452-469) is seen here: the end of what it takes at a place, or None for the ParseException. *)
Definition expr := nat -> option nat.
(** whitespace.skip, L520 (parsing/whitespaces.py L137-162, without what it remembers, see C103). *)
Fixpoint skip_rest (blank : N -> bool) (rest : pystr) (loc : nat) : nat :=
  match rest with c :: r => if blank c then skip_rest blank r (S loc) else loc | [] => loc end.
(** The same from a place of the text, L520. *)
Definition skip (blank : N -> bool) (s : pystr) (loc : nat) : nat := skip_rest blank (skipn loc s) loc.
(** How the loop is left: the break of L525 or that of L547, with skip_end, before_end and loc; the else of L548; no fuel. *)
Inductive left := Broken (skip_end before_end loc : nat) | Ran | OutOfFuel.
(** The loop, L517-550. *)
Fixpoint skip_loop (fuel : nat) (blank : N -> bool) (s : pystr) (target : expr) (fail : option expr) (loc : nat) : left :=
  match fuel with
  | 0 => OutOfFuel
  | S fuel =>
    if Nat.leb loc (length s) then
      let skip_end := loc in
      let before_end := skip blank s loc in
      match match fail with Some f => f before_end | None => None end with
      | Some _ => Broken skip_end before_end before_end
      | None =>
        match target before_end with
        | Some e => Broken skip_end before_end e
        | None => skip_loop fuel blank s target fail (before_end + 1)
        end
      end
    else Ran
  end.
(** What is returned or raised, L550, L562, L564: the end, the text that was skipped and whether the target is in the result. *)
Inductive outcome := Skipped (end_ : nat) (text : pystr) (target : bool) | Fails | NoFuel.
(** parse_impl, L512-564. *)
Definition skip_to (blank : N -> bool) (target : expr) (fail : option expr) (include : bool) (s : pystr) (start : nat) : outcome :=
  match skip_loop (length s + 2 - start) blank s target fail start with
  | Broken skip_end before_end e =>
    let text := firstn (skip_end - start) (skipn start s) in
    if include then match target before_end with Some _ => Skipped e text true | None => Fails end
    else Skipped before_end text false
  | Ran => Fails
  | OutOfFuel => NoFuel
  end.
