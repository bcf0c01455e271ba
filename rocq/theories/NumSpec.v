(** Whole numbers and the texts that mean them. *)
From Coq Require Import String Ascii List Arith NArith ZArith Bool.
From Verif Require Import Base EngineSqlModel.
Import ListNotations.
Local Open Scope Z_scope.

(** The number that digits mean, by their places. *)
Fixpoint value (l : pystr) : Z := match l with [] => 0 | c :: l => Z.of_N (c - 48) * 10 ^ Z.of_nat (length l) + value l end.
Definition numeral (l : pystr) : Prop := l <> [] /\ Forall (fun c => digit c = true) l.
(** A sign and what it does to a number. *)
Inductive sign_of : pystr -> (Z -> Z) -> Prop :=
| no_sign : sign_of [] (fun v => v)
| plus_sign : sign_of [43%N] (fun v => v)
| minus_sign : sign_of [45%N] Z.opp.
(** Texts of whole numbers, without and with an exponent [k]. *)
Inductive plain : pystr -> Z -> Prop :=
| a_plain g f ds : sign_of g f -> numeral ds -> plain (g ++ ds) (f (value ds)).
Inductive powered : pystr -> (Z -> Z) -> Z -> Prop :=
| a_power g f ds e p ks : sign_of g f -> numeral ds -> e = 101%N \/ e = 69%N -> p = [] \/ p = [43%N] -> numeral ks ->
  powered (g ++ ds ++ e :: p ++ ks) f (value ds * 10 ^ value ks).
