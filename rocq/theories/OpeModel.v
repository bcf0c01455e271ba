(** Order-preserving encryption: scheduler/crypto/ope (ope.py, stat.py, util.py, hgd.py) and
    OPECipher, scheduler/crypto/encrypt.py L263-275.

    Parameters: the keystream of HMAC-SHA256 + AES-CTR ([keystream], ope.py L170-183) and, in
    the OPE functions, the hypergeometric sampler ([hyper]).  The sampler itself is modelled
    at the end of the file. *)
From Coq Require Import String Ascii List NArith ZArith QArith Qround Bool Arith.
From Coq Require Import Init.Byte.
From Verif Require Import Base CryptoModel.
Import ListNotations.
Open Scope Z_scope.

(** ** util.py *)
(** Binary digits of a positive number, most significant first: [bin(n)[2:]]. *)
Fixpoint bin_digits (p : positive) : list Z :=
  match p with
  | xH => [1]
  | xO q => bin_digits q ++ [0]
  | xI q => bin_digits q ++ [1]
  end.

(** byte_to_bitstring, util.py L1-5: [bin(byte + 0x100)[3:]] drops "0b" and the leading 1;
    the assertion rejects numbers outside 0..255. *)
Definition byte_to_bitstring (b : Z) : res (list Z) :=
  if (0 <=? b) && (b <=? 255) then
    match b + 256 with
    | Zpos p => Ok (skipn 1 (bin_digits p))
    | _ => Ok []
    end
  else Err AssertionError.

(** str_to_bitstring, util.py L16-21, on bytes. *)
Definition str_to_bitstring (l : list byte) : res (list Z) :=
  do bs <- mapM (fun b => byte_to_bitstring (Z.of_N (bN b))) l; Ok (concat bs).

(** ** stat.py: coins.  A coin source gives the i-th item: [Some b], or [None] at the end of a
    finite list (sample_uniform appends None to a list, stat.py L30-32). *)
Definition coins := nat -> option Z.
Definition list_coins (l : list Z) : coins := fun i => nth_error l i.

(** ** ValueRange, ope.py L23-79 (integer arguments only). *)
Record vrange := { vstart : Z; vend : Z }.
(** __init__, L26-37. *)
Definition mk_range (s e : Z) : res vrange :=
  if s >? e then Err InvalidRangeLimits else Ok {| vstart := s; vend := e |}.
(** size, L65-67. *)
Definition vsize (r : vrange) : Z := vend r - vstart r + 1.
(** contains, L73-75. *)
Definition vcontains (r : vrange) (n : Z) : bool := (vstart r <=? n) && (n <=? vend r).

(** sample_uniform, stat.py L28-47.  Loop of L35-45 with fuel; [i] is the position of the next
    coin.  The fuel passed below is shown to be enough. *)
Fixpoint su_loop (fuel : nat) (s e : Z) (c : coins) (i : nat) : res Z :=
  if e - s + 1 >? 1 then
    match fuel with
    | O => Err OutOfFuel
    | S f =>
      let mid := (s + e) / 2 in
      match c i with
      | Some b => if b =? 0 then su_loop f s mid c (S i)
                  else if b =? 1 then su_loop f (mid + 1) e c (S i)
                  else Err InvalidCoin
      | None => Err NotEnoughCoins
      end
    end
  else if e - s + 1 =? 1 then Ok s else Err AssertionError.

Definition sample_uniform (r : vrange) (c : coins) : res Z :=
  if vsize r =? 0 then Err AssertionError
  else su_loop (Z.to_nat (Z.log2_up (vsize r))) (vstart r) (vend r) c 0.

(** ** Floating-point halving, ope.py L113 and L143: [int(math.ceil(out_size / 2.0))].
    Python converts the integer to the nearest double (ties to even) and raises OverflowError
    ([Generic] here) when it is too large; halving is exact. *)
Definition f64_int (n : Z) : Z :=
  if n <? 2 ^ 53 then n
  else
    let e := Z.log2 n - 52 in
    let q := n / 2 ^ e in
    let r := n mod 2 ^ e in
    let h := 2 ^ (e - 1) in
    (if r <? h then q else if h <? r then q + 1 else if Z.even q then q else q + 1) * 2 ^ e.

Definition ceil_half (n : Z) : res Z :=
  if 2 ^ 1024 <=? f64_int n then Err Generic else Ok ((f64_int n + 1) / 2).

(** ** sample_hgd, stat.py L5-25. *)
Definition sampler := Z -> Z -> Z -> coins -> res Z.

Definition sample_hgd (hyper : sampler) (inr outr : vrange) (nsample : Z) (c : coins) : res Z :=
  let in_size := vsize inr in
  let out_size := vsize outr in
  if negb ((in_size >? 0) && (out_size >? 0)) then Err AssertionError
  else if negb (in_size <=? out_size) then Err AssertionError
  else if negb (vcontains outr nsample) then Err AssertionError
  else
    let idx := nsample - vstart outr + 1 in
    if in_size =? out_size then Ok (vstart inr + idx - 1)
    else
      do num <- hyper idx in_size (out_size - in_size) c;
      if num =? 0 then Ok (vstart inr)
      else
        let x := vstart inr + num - 1 in
        if vcontains inr x then Ok x else Err AssertionError.

(** ** OPE, ope.py L82-162.  [tape d] is tape_gen(d). *)
Section OPE.
Variables (hyper : sampler) (tape : Z -> coins).

(** encrypt_recursive, L108-128. *)
Fixpoint encrypt_recursive (fuel : nat) (p : Z) (inr outr : vrange) : res Z :=
  match fuel with
  | O => Err OutOfFuel
  | S f =>
    let in_size := vsize inr in
    let out_size := vsize outr in
    let in_edge := vstart inr - 1 in
    let out_edge := vstart outr - 1 in
    do half <- ceil_half out_size;
    let mid := out_edge + half in
    if negb (in_size <=? out_size) then Err AssertionError
    else if in_size =? 1 then sample_uniform outr (tape p)
    else
      do x <- sample_hgd hyper inr outr mid (tape mid);
      if p <=? x then
        do inr' <- mk_range (in_edge + 1) x;
        do outr' <- mk_range (out_edge + 1) mid;
        encrypt_recursive f p inr' outr'
      else
        do inr' <- mk_range (x + 1) (in_edge + in_size);
        do outr' <- mk_range (mid + 1) (out_edge + out_size);
        encrypt_recursive f p inr' outr'
  end.

(** decrypt_recursive, L138-162. *)
Fixpoint decrypt_recursive (fuel : nat) (c : Z) (inr outr : vrange) : res Z :=
  match fuel with
  | O => Err OutOfFuel
  | S f =>
    let in_size := vsize inr in
    let out_size := vsize outr in
    let in_edge := vstart inr - 1 in
    let out_edge := vstart outr - 1 in
    do half <- ceil_half out_size;
    let mid := out_edge + half in
    if negb (in_size <=? out_size) then Err AssertionError
    else if in_size =? 1 then
      do s <- sample_uniform outr (tape (vstart inr));
      if s =? c then Ok (vstart inr) else Err InvalidCiphertext
    else
      do x <- sample_hgd hyper inr outr mid (tape mid);
      if c <=? mid then
        do inr' <- mk_range (in_edge + 1) x;
        do outr' <- mk_range (out_edge + 1) mid;
        decrypt_recursive f c inr' outr'
      else
        do inr' <- mk_range (x + 1) (in_edge + in_size);
        do outr' <- mk_range (mid + 1) (out_edge + out_size);
        decrypt_recursive f c inr' outr'
  end.

(** __init__, L84-98: the ranges a cipher can have. *)
Definition ope_init (inr outr : vrange) : res (vrange * vrange) :=
  if vsize inr >? vsize outr then Err Generic else Ok (inr, outr).

(** encrypt, L100-106. *)
Definition ope_encrypt (fuel : nat) (inr outr : vrange) (p : Z) : res Z :=
  if vcontains inr p then encrypt_recursive fuel p inr outr else Err OutOfRange.

(** decrypt, L130-136. *)
Definition ope_decrypt (fuel : nat) (inr outr : vrange) (c : Z) : res Z :=
  if vcontains outr c then decrypt_recursive fuel c inr outr else Err OutOfRange.
End OPE.

(** Default ranges, ope.py L17-20. *)
Definition default_range : vrange := {| vstart := - 2 ^ 63; vend := 2 ^ 63 - 1 |}.

(** tape_gen, ope.py L164-186: the bits of the keystream for [str(data)]; never ends. *)
Definition tape_gen (keystream : list byte -> pystr -> nat -> byte) (key : list byte) (d : Z) : coins :=
  fun i => match byte_to_bitstring (Z.of_N (bN (keystream key (str_int d) (Nat.div i 8)))) with
           | Ok l => nth_error l (Nat.modulo i 8)
           | Err _ => None
           end.

(** Recursion depth allowed: Python's default limit is 1000 frames. *)
Definition py_depth : nat := 900.

(** OPECipher.encrypt/decrypt, encrypt.py L267-275, on integers: default ranges (the
    constructor passes none), key derived by SHA-256. *)
Definition opec_encrypt (hyper : sampler) (keystream : list byte -> pystr -> nat -> byte)
    (P : prim) (key : pystr) (v : Z) : res Z :=
  ope_encrypt hyper (tape_gen keystream (kdf P key)) py_depth default_range default_range v.
Definition opec_decrypt (hyper : sampler) (keystream : list byte -> pystr -> nat -> byte)
    (P : prim) (key : pystr) (c : Z) : res Z :=
  ope_decrypt hyper (tape_gen keystream (kdf P key)) py_depth default_range default_range c.

(** ** hgd.py: the sampler.  Simplification: real arithmetic instead of doubles, so the results
    below are claimed for sizes below 2^53. *)
(** PRNG.draw, L11-19: 32 bits from position 32*i as a fraction of 2^32-1. *)
Fixpoint draw_bits (n : nat) (c : coins) (i : nat) (acc : Z) : res Z :=
  match n with
  | O => Ok acc
  | S n' => match c i with
            | Some b => draw_bits n' c (S i) (2 * acc + b)
            | None => Err AssertionError
            end
  end.
Definition draw (c : coins) (i : nat) : res Q :=
  do o <- draw_bits 32 c (32 * i) 0; Ok (Qmake o 4294967295).

(** hypergeometric_hyp, L54-71; [i] counts draws, the fuel is [K]. *)
Fixpoint hyp_loop (K : nat) (Y d1 : Z) (c : coins) (i : nat) : res Z :=
  if Y <=? 0 then Ok Y
  else
    match K with
    | O => Ok Y
    | S K' =>
      do U <- draw c i;
      hyp_loop K' (Y - Qfloor (U + inject_Z Y / inject_Z (d1 + Z.of_nat K))) d1 c (S i)
    end.
Definition hypergeometric_hyp (good bad sample : Z) (c : coins) : res Z :=
  let d1 := bad + good - sample in
  let d2 := Z.min bad good in
  do Y <- hyp_loop (Z.to_nat sample) d2 d1 c 0;
  let z := d2 - Y in
  Ok (if good >? bad then sample - z else z).

(** hypergeometric_hrua, L73-127.  The candidate W of each round and the accept/reject test
    (square roots, logarithms, log-gamma) are parameters: [cand t] is the candidate computed
    from draws 2t and 2t+1, [accept t z] the verdict, [d67] is floor(d6 + 16*d7).  What is kept
    is the bound on candidates (L92, L100-101) and the corrections after the loop. *)
Fixpoint hrua_loop (fuel : nat) (d11 : Z) (cand : nat -> Q) (accept : nat -> Z -> bool) (t : nat) : res Z :=
  match fuel with
  | O => Err OutOfFuel
  | S f =>
    let W := cand t in
    if negb (Qle_bool 0 W) || Qle_bool (inject_Z d11) W then hrua_loop f d11 cand accept (S t)
    else
      let z := Qfloor W in
      if accept t z then Ok z else hrua_loop f d11 cand accept (S t)
  end.
Definition hypergeometric_hrua (fuel : nat) (good bad sample d67 : Z)
    (cand : nat -> Q) (accept : nat -> Z -> bool) : res Z :=
  let mingoodbad := Z.min good bad in
  let popsize := good + bad in
  let m := Z.min sample (popsize - sample) in
  let d11 := Z.min (Z.min m mingoodbad + 1) d67 in
  do z <- hrua_loop fuel d11 cand accept 0;
  let z1 := if good >? bad then m - z else z in
  Ok (if m <? sample then good - z1 else z1).

(** rhyper, L45-51.  The parameters of hrua depend on the arguments and the coins. *)
Definition rhyper (fuel : nat) (d67 : Z -> Z -> Z -> Z) (cand : Z -> Z -> Z -> coins -> nat -> Q)
    (accept : Z -> Z -> Z -> coins -> nat -> Z -> bool) : sampler :=
  fun kk nn1 nn2 c =>
    if kk >? 10 then
      hypergeometric_hrua fuel nn1 nn2 kk (d67 kk nn1 nn2) (cand kk nn1 nn2 c) (accept kk nn1 nn2 c)
    else hypergeometric_hyp nn1 nn2 kk c.
