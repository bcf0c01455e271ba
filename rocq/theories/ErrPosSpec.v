(** What a position in a text is, and which places the attempts to parse it reached. *)
From Coq Require Import String Ascii List Arith NArith Bool.
From Verif Require Import Base ErrPosModel.
Import ListNotations.

(** The text consists of the lines before, this one and the lines after; up to the position it consists of the lines before and the
    beginning of this one. *)
Definition one_line (s : pystr) : Prop := ~ In 10%N s.
Definition position (s : pystr) (at_ number column : nat) (this : pystr) : Prop :=
  exists pre post, Forall one_line pre /\ one_line this /\ Forall one_line post /\
    s = join [10%N] (pre ++ this :: post) /\ number = length pre + 1 /\
    1 <= column <= length this + 1 /\ firstn at_ s = join [10%N] (pre ++ [firstn (column - 1) this]).

(** No exception of another class among the causes. *)
Inductive pure : exc -> Prop := pure_failed what named start msg causes : Forall pure causes -> pure (Failed what named start msg causes).
(** An attempt that failed and has no cause: where it began. *)
Inductive reached : exc -> nat -> Prop :=
| reached_here what named start msg : reached (Failed what named start msg []) start
| reached_cause what named start msg causes c l : In c causes -> reached c l -> reached (Failed what named start msg causes) l.
Inductive within : exc -> exc -> Prop :=
| within_self e : within e e
| within_cause e what named start msg causes c : In c causes -> within e c -> within e (Failed what named start msg causes).
