(** Small vocabulary for the statements about symmetric ciphertexts.  Nothing here comes
    from the code. *)
From Coq Require Import String Ascii List NArith ZArith Bool Arith.
From Verif Require Import Base.
Import ListNotations.

(** Bytes one code point takes in UTF-8. *)
Definition utf8_size (c : N) : nat :=
  if (c <? 128)%N then 1 else if (c <? 2048)%N then 2 else if (c <? 65536)%N then 3 else 4.

(** Bytes a text takes in UTF-8. *)
Definition nbytes (s : pystr) : nat := fold_right (fun c n => utf8_size c + n) 0 s.

(** [A-Za-z0-9+/=]. *)
Definition b64_alphabet (c : N) : Prop :=
  (65 <= c <= 90 \/ 97 <= c <= 122 \/ 48 <= c <= 57 \/ c = 43 \/ c = 47 \/ c = 61)%N.

(** [r] is [s] without its trailing NUL characters. *)
Definition without_trailing_nuls (s r : pystr) : Prop :=
  exists n, s = r ++ repeat 0%N n /\ (r = [] \/ last r 0%N <> 0%N).

(** 16-byte blocks needed for n bytes. *)
Definition blocks (n : nat) : nat := (n + 15) / 16.

(** The declaration text of a VARCHAR column of width n. *)
Definition varchar_decl (n : Z) : pystr := u "VARCHAR(" ++ str_int n ++ u ")".
