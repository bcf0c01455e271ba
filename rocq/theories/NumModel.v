(** Whole numbers in statements, sql_parsing/utils.py L598-605: parse_int of the text that int_num takes. *)
From Coq Require Import String Ascii List Arith NArith ZArith Bool.
From Verif Require Import Base OpeModel EngineSqlModel.
Import ListNotations.
Local Open Scope Z_scope.

(** The digits of int(...) and float(...), of ASCII digits. *)
Definition horner (l : pystr) : Z := fold_left (fun a c => 10 * a + Z.of_N (c - 48)) l 0.
Definition digits (l : pystr) : res Z := match l with [] => Err ValueError | _ => if forallb digit l then Ok (horner l) else Err ValueError end.
(** A sign before, as int and float read it. *)
Definition signed (f : pystr -> res Z) (l : pystr) : res Z :=
  match l with
  | c :: r => if N.eqb c 45 then do v <- f r; Ok (- v) else if N.eqb c 43 then f r else f l
  | [] => f l
  end.
(** float(...) of digits, e or E, an optional + and digits: the nearest double, which is a whole number (float(...) of other texts is left out:
    ValueError); int(...) of an infinite one raises OverflowError (here Generic). *)
Definition scaled (l : pystr) : res Z :=
  let n := span digit l in
  match skipn n l with
  | _ :: r =>
    do m <- digits (firstn n l);
    do k <- digits (match r with c :: r' => if N.eqb c 43 then r' else r | [] => r end);
    let f := f64_int (m * 10 ^ k) in if 2 ^ 1024 <=? f then Err Generic else Ok f
  | [] => Err ValueError
  end.
(** parse_int, L598-602: "e" in tokens[0].lower(). *)
Definition parse_int (t : pystr) : res Z := if existsb (fun c => existsb (N.eqb c) (u "eE")) t then signed scaled t else signed digits t.
