(** LIKE support: FuzzyCipher (scheduler/crypto/encrypt.py L278-300) and the rewriting of
    a LIKE pattern (scheduler/handers/clause/sql_where.py L55-68, L73-86). *)
From Coq Require Import String Ascii List NArith ZArith Bool Arith.
From Verif Require Import Base CryptoModel.
Import ListNotations.

(** [str.isalnum()] of one character is a parameter ([alnum]): Python decides it from the
    Unicode tables. *)
Definition isalnum (alnum : N -> bool) (s : pystr) : bool :=
  match s with [] => false | _ => forallb alnum s end.

(** [[raw[i:i+k] for i in range(len(raw)-k+1)]]: all windows of k characters
    (loop bounds of L291 with k=3 and of L297 with k=2). *)
Fixpoint windows (k : nat) (s : pystr) : list pystr :=
  match s with
  | [] => []
  | _ :: r => if Nat.leb k (length s) then firstn k s :: windows k r else []
  end.

(** FuzzyCipher.encrypt, encrypt.py L285-300.  The test
    [raw.isalpha() or raw.isalnum() or raw.isdigit()] is [raw.isalnum()], because in
    Python every alphabetic and every digit character is alphanumeric. *)
Definition fuzzy_encrypt (alnum : N -> bool) (P : prim) (key raw : pystr) : res pystr :=
  if isalnum alnum raw then
    if Nat.ltb (length raw) 3 then aes_encrypt P key raw
    else do l <- mapM (aes_encrypt P key) (windows 3 raw); Ok (concat l)
  else
    if Nat.ltb (length raw) 2 then aes_encrypt P key raw
    else do l <- mapM (aes_encrypt P key) (windows 2 raw); Ok (concat l).

Definition PCT : N := 37%N. (* % *)

(** One part of a LIKE pattern, sql_where.py L78-85: the empty part stays empty, a part
    shorter than three characters raises. *)
Definition fuzzy_part (alnum : N -> bool) (P : prim) (key part : pystr) : res pystr :=
  match part with
  | [] => Ok []
  | _ => if Nat.ltb (length part) 3 then Err Generic else fuzzy_encrypt alnum P key part
  end.

(** The whole pattern, sql_where.py L74-86 (L56-68 for an int, after [str]). *)
Definition fuzzy_pattern (alnum : N -> bool) (P : prim) (key pat : pystr) : res pystr :=
  do l <- mapM (fuzzy_part alnum P key) (split PCT pat); Ok (join [PCT] l).

(** ASCII classifier for examples (Python agrees with it below 128). *)
Definition ascii_alnum (c : N) : bool :=
  (((48 <=? c) && (c <=? 57)) || ((65 <=? c) && (c <=? 90)) || ((97 <=? c) && (c <=? 122)))%N.
