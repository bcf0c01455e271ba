(** Numeric encoding of FLOAT and DOUBLE values: scheduler/crypto/encrypt.py L35-85.

    Simplification: Python floats are rationals and their arithmetic is exact; integers are
    exact in Python already. *)
From Coq Require Import String Ascii List NArith ZArith QArith Bool.
From Verif Require Import Base.
Import ListNotations.
Open Scope Q_scope.

(** [10 ** n] *)
Definition p10 (n : Z) : Q := inject_Z (10 ^ n).

(** [int(x)] on a number: truncation toward zero (L65, L68). *)
Definition trunc (q : Q) : Z := Z.quot (Qnum q) (Zpos (Qden q)).

(** One linear piece, e.g. L42: [(val-x0)/(x1-x0)*(y1-y0)+y0]. *)
Definition piece (x0 x1 y0 y1 v : Q) : Q := (v - x0) / (x1 - x0) * (y1 - y0) + y0.

Definition Qltb (a b : Q) : bool := negb (Qle_bool b a).

(** stretch, L35-46, on a non-negative argument.  Above 10**65 the Python function returns
    None; every caller then computes with None, which is a TypeError. *)
Definition stretch_nonneg (v : Q) : res Q :=
  if Qle_bool v (p10 15) && Qle_bool 0 v then Ok v
  else if Qle_bool v (p10 42) && Qltb (p10 15) v then Ok (piece (p10 15) (p10 42) (p10 15) (p10 19) v)
  else if Qle_bool v (p10 56) && Qltb (p10 42) v then Ok (piece (p10 42) (p10 56) (p10 19) (p10 22) v)
  else if Qle_bool v (p10 65) && Qltb (p10 56) v then Ok (piece (p10 56) (p10 65) (p10 22) (p10 24) v)
  else Err TypeError.

(** stretch, L35-46: one recursive call for a negative argument (L37-38). *)
Definition stretch (v : Q) : res Q :=
  if Qltb v 0 then do w <- stretch_nonneg (- v); Ok (- w) else stretch_nonneg v.

(** inverse_stretch, L49-60.  The negative branch (L51-52) calls [stretch], as in the code. *)
Definition inverse_stretch (v : Q) : res Q :=
  if Qltb v 0 then do w <- stretch (- v); Ok (- w)
  else if Qle_bool v (p10 15) && Qle_bool 0 v then Ok v
  else if Qle_bool v (p10 19) && Qltb (p10 15) v then Ok (piece (p10 15) (p10 19) (p10 15) (p10 42) v)
  else if Qle_bool v (p10 22) && Qltb (p10 19) v then Ok (piece (p10 19) (p10 22) (p10 42) (p10 56) v)
  else if Qle_bool v (p10 24) && Qltb (p10 22) v then Ok (piece (p10 22) (p10 24) (p10 56) (p10 65) v)
  else Err TypeError.

(** encode, L63-69, on a number: an integer stands for itself as a rational. *)
Definition encode_float (v : Q) : Z := trunc (v * p10 12).
Definition encode_double (v : Q) : res Z := do w <- stretch v; Ok (trunc (w * p10 12)).

(** decode, L72-85, after [eval] has turned the decrypted text into an integer. *)
Definition decode_float (e : Z) : Q := inject_Z e / p10 12.
Definition decode_double (e : Z) : res Q := do w <- inverse_stretch (inject_Z e); Ok (w / p10 12).
