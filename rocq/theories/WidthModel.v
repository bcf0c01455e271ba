(** Declared types of physical columns: scheduler/schema/metadata.py L44-L83. *)
From Coq Require Import String Ascii List NArith ZArith Bool Arith.
From Verif Require Import Base.
Import ListNotations.

(** get_type_and_len(t_k, t_v), metadata.py L44-51.  [t_v] is a non-negative width. *)
Definition get_type_and_len (t_k : pystr) (t_v : nat) : pystr * nat :=
  if seqb t_k (u "char") || seqb t_k (u "varchar") then
    let i := if Nat.eqb ((t_v / 16 + 1) mod 3) 0 then 0 else 1 in
    let n := (((t_v / 16 + 1) * 16) / 3 + i) * 4 in
    ((if Nat.ltb 254 n then u "varchar" else t_k), n)
  else (t_k, t_v).

(** A declared type of [element_type], metadata.py L54-78: a fixed text or the function
    [get_type_and_len]. *)
Inductive elt := Fixed (t : pystr) | TypeAndLen.

(** element_type.get(K) for an upper-case type name, metadata.py L54-78; dictionary order kept. *)
Definition element_type (K : pystr) : option (dict elt) :=
  if seqb K (u "INT") then
    Some [(u "order-preserving", Fixed (u "BIGINT")); (u "symmetric", Fixed (u "VARCHAR(300)"))]
  else if seqb K (u "VARCHAR") || seqb K (u "CHAR") then
    Some [(u "symmetric", TypeAndLen)]
  else if seqb K (u "FLOAT") || seqb K (u "DOUBLE") then
    Some [(u "order-preserving", Fixed (u "DECIMAL(65)")); (u "symmetric", Fixed (u "VARCHAR(1000)"))]
  else None.

(** Fixed declared types, metadata.py L81-83. *)
Definition fuzzy_type_fixed : pystr := u "VARCHAR(2000)".
Definition arithmetic_type_fixed : pystr := u "Decimal(65,0)".
Definition sm4_type_fixed : pystr := u "VARCHAR(2000)".
