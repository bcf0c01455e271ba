(** * How often a connection is used, read off the log of driver calls *)
From Coq Require Import List Arith NArith ZArith Bool Lia.
From Verif Require Import SteadyModel SteadySpec.
Import ListNotations.

(** The number of statements of clients that raw connection [r] answered. *)
Definition is_served (r : nat) (e : event) : bool :=
  match e with (KExec r' _ _, Returns _) => Nat.eqb r r' | _ => false end.
Definition served (r : nat) (l : list event) : nat := length (filter (is_served r) l).

(** A closed connection answers no statement. *)
Definition closed (r : nat) (l : list event) : Prop := In (KClose r) (map fst l).
Definition silent (l : list event) : Prop := forall l1 r k q a l2,
  l = l1 ++ (KExec r k q, a) :: l2 -> closed r l1 -> raised a = true.
