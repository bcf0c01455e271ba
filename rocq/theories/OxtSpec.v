(** * Specification vocabulary for the encrypted keyword search *)
From Coq Require Import String Ascii List NArith ZArith Bool.
From Verif Require Import Base CryptoModel OxtModel.
Import ListNotations.
Open Scope Z_scope.

(** Blank, comma and full stop separate words. *)
Definition separator (c : N) : Prop := c = 32%N \/ c = 44%N \/ c = 46%N.

(** [x] is one of the words of the text [t]. *)
Definition word_in (x t : pystr) : Prop :=
  x <> [] /\ Forall (fun c => ~ separator c) x /\
  exists pre post, t = pre ++ x ++ post /\
    (pre = [] \/ separator (last pre 0%N)) /\ (post = [] \/ separator (hd 0%N post)).

(** Document [ind] has the keyword with number [w]. *)
Definition has_word (docs : list (Z * pystr)) (ind w : Z) : Prop :=
  exists t x, In (ind, t) docs /\ word_in x t /\ encode_word x = Ok w.

(** The tag stored for keyword [w] in document [ind]: the product of two hash
    values modulo the prime. *)
Definition tag (md5 : list Byte.byte -> N) (K : keys) (w ind v : Z) : Prop :=
  exists a b, prf md5 (k_x K) (str_int w) = Ok a /\ prf md5 (k_i K) (str_int ind) = Ok b /\
              v = a * (b mod mod_p) mod mod_p.

(** No keyword of the collection but [w] has the hash value of [w] under [k_t]. *)
Definition no_stag_collision (md5 : list Byte.byte -> N) (K : keys) (docs : list (Z * pystr)) (w : Z) : Prop :=
  forall ind w', has_word docs ind w' -> prf md5 (k_t K) (str_int w') = prf md5 (k_t K) (str_int w) -> w' = w.

(** Without the NUL characters at the front. *)
Fixpoint drop_nuls (s : pystr) : pystr :=
  match s with 0%N :: r => drop_nuls r | _ => s end.

(** Every key can be encoded as UTF-8. *)
Definition keys_encodable (K : keys) : Prop :=
  Forall (fun k => forallb scalar k = true) [k_s K; k_x K; k_i K; k_z K; k_t K].

(** The blinding factor of keyword [w] has an inverse modulo the prime. *)
Definition invertible (md5 : list Byte.byte -> N) (K : keys) (w : Z) : Prop :=
  exists z, prf md5 (k_z K) (str_int w) = Ok z /\ Z.gcd z mod_p = 1.
