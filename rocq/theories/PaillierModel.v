(** The homomorphic cipher (scheduler/crypto/encrypt.py L303-336), the part of the phe library
    it calls, and the server-side SUM/AVG of scheduler/schema/metadata.py L170-182, L241-255.

    The phe library is not part of /repo: the definitions marked "phe" follow its published
    source (phe 1.4/1.5, util.py, paillier.py and encoding.py).  Python integers are exact and
    so are [Z]; a quotient of integers is an exact rational. *)
From Coq Require Import String Ascii List NArith ZArith Zpow_facts QArith Qround Bool.
From Verif Require Import Base.
Import ListNotations.
Open Scope Z_scope.

(** phe util.powmod(a, b, c): [pow(a, b, c)] *)
Definition powmod (a b c : Z) : Z := Zpow_mod a b c.

(** Extended Euclid, used by phe util.invert; the fuel bounds the number of divisions. *)
Fixpoint egcd (fuel : nat) (a b : Z) : Z * Z * Z :=
  match fuel with
  | O => (a, 1, 0)
  | S f => if b =? 0 then (a, 1, 0)
           else let '(g, x, y) := egcd f b (a mod b) in (g, y, x - (a / b) * y)
  end.

(** phe util.invert(a, m): the inverse of [a] modulo [m], ZeroDivisionError if there is none. *)
Definition invert (a m : Z) : res Z :=
  let '(g, _, y) := egcd (Z.to_nat (2 * (Z.log2 m + 1))) m (a mod m) in
  if g =? 1 then Ok (y mod m) else Err ZeroDivisionError.

(** phe PaillierPublicKey: [nsquare], [max_int = n // 3 - 1] *)
Definition nsquare (n : Z) : Z := n * n.
Definition max_int (n : Z) : Z := n / 3 - 1.

(** phe EncodedNumber.encode with precision None on an int: exponent 0. *)
Definition phe_encode (n v : Z) : res Z :=
  if max_int n <? Z.abs v then Err ValueError else Ok (v mod n).

(** phe EncodedNumber.decode at exponent 0.  The OverflowError of the middle range is [Generic]. *)
Definition phe_decode (n e : Z) : res Z :=
  if n <=? e then Err ValueError
  else if e <=? max_int n then Ok e
  else if n - max_int n <=? e then Ok (e - n)
  else Err Generic.

(** phe PaillierPublicKey.raw_encrypt; [r] is the random factor drawn by obfuscate(). *)
Definition raw_encrypt (n m r : Z) : res Z :=
  do nude <- (if (n - max_int n <=? m) && (m <? n)
              then invert ((n * (n - m) + 1) mod nsquare n) (nsquare n)
              else Ok ((n * m + 1) mod nsquare n));
  Ok ((nude * powmod r n (nsquare n)) mod nsquare n).

(** phe PaillierPrivateKey.l_function, h_function *)
Definition l_function (x p : Z) : Z := (x - 1) / p.
Definition h_function (n x : Z) : res Z := invert (l_function (powmod (n + 1) (x - 1) (x * x)) x) x.

(** phe PaillierPrivateKey.raw_decrypt after the constructor ordered the primes [p < q]. *)
Definition raw_decrypt_ordered (p q c : Z) : res Z :=
  let n := p * q in
  do hp <- h_function n p;
  do hq <- h_function n q;
  do pinv <- invert p q;
  let mp := (l_function (powmod c (p - 1) (p * p)) p * hp) mod p in
  let mq := (l_function (powmod c (q - 1) (q * q)) q * hq) mod q in
  Ok (mp + (((mq - mp) * pinv) mod q) * p).

(** phe PaillierPrivateKey.__init__: equal primes are a ValueError, otherwise sorted. *)
Definition raw_decrypt (p q c : Z) : res Z :=
  if p =? q then Err ValueError
  else if q <? p then raw_decrypt_ordered q p c else raw_decrypt_ordered p q c.

(** phe PaillierPrivateKey.decrypt of an EncryptedNumber with exponent 0 *)
Definition sk_decrypt (p q c : Z) : res Z :=
  do e <- raw_decrypt p q c; phe_decode (p * q) e.

(** HomomorphicCipher.encrypt, L315-316, with the key [(p, q)] of L307-313: the decimal text of
    the ciphertext.  The private key is built in the constructor, so equal primes fail here too. *)
Definition homo_encrypt_num (p q r v : Z) : res Z :=
  if p =? q then Err ValueError else
  do m <- phe_encode (p * q) v; raw_encrypt (p * q) m r.
Definition homo_encrypt (p q r v : Z) : res pystr :=
  do c <- homo_encrypt_num p q r v; Ok (str_int c).

(** A decrypted number is an int or a float; floats are rationals here. *)
Inductive hnum := HInt (z : Z) | HFloat (f : Q).

(** [round(x, 4)]: nearest multiple of 1/10000, ties to even. *)
Definition round4 (x : Q) : Q :=
  let y := (x * 10000)%Q in
  let f := Qfloor y in
  let d := (y - inject_Z f)%Q in
  let k := match (d ?= 1 # 2)%Q with Lt => f | Gt => f + 1 | Eq => if Z.even f then f else f + 1 end in
  (inject_Z k / 10000)%Q.

(** The reduce of L323 and L327. *)
Definition product_mod (m : Z) (l : list Z) : Z := fold_left (fun x y => (x * y) mod m) l 1.

Definition COMMA : N := 44%N.

(** [a / b] on integers *)
Definition true_div (a b : Z) : res Q :=
  if b =? 0 then Err ZeroDivisionError else Ok (inject_Z a / inject_Z b)%Q.

(** HomomorphicCipher.decrypt, L318-336. *)
Definition homo_decrypt (p q : Z) (enc : pystr) : res hnum :=
  let parts := split COMMA enc in
  let values := removelast parts in
  let agg := last parts [] in
  let nsq := nsquare (p * q) in
  if seqb agg (u "SUM") then
    do l <- mapM parse_int values;
    do v <- sk_decrypt p q (product_mod nsq l);
    Ok (HInt v)
  else if seqb agg (u "AVG") then
    do l <- mapM parse_int values;
    do v <- sk_decrypt p q (product_mod nsq l);
    do a <- true_div v (Z.of_nat (List.length values));
    Ok (HFloat a)
  else match parts with
       | [c] => do z <- parse_int c; do v <- sk_decrypt p q z; Ok (HInt v)
       | [c; num] => do z <- parse_int c; do v <- sk_decrypt p q z;
                     do k <- parse_int num; do a <- true_div v k; Ok (HFloat (round4 a))
       | _ => Err ValueError
       end.

(** ** Server side, metadata.py.  A cell of the arithmetic column is NULL or a stored number. *)

(** DECIMAL(65,0) arithmetic of MySQL: results of more than 65 digits are an error. *)
Definition dec65 (z : Z) : res Z := if Z.abs z <? 10 ^ 65 then Ok z else Err DbError.

(** set_sum_feature L170-179: [SET @sum=1; ... @sum:=(@sum*f)%n2 ...], the value of the last row.
    NULL propagates.  Rows are visited in order (MySQL leaves the order of user variable
    assignments open; this is the order the code relies on). *)
Definition sum_step (nsq : Z) (acc : res (option Z)) (cell : option Z) : res (option Z) :=
  do a <- acc;
  match a, cell with
  | Some x, Some f => do y <- dec65 (x * f); Ok (Some (y mod nsq))
  | _, _ => Ok None
  end.
Definition server_product (nsq : Z) (cells : list (option Z)) : res (option Z) :=
  match cells with
  | [] => Ok None
  | _ => fold_left (sum_step nsq) cells (Ok (Some 1))
  end.

(** modify_sum_query L241-246 with use_cursor: the query returns [@sum<feature>]; the handler
    returns None for NULL (decrypt_handler.py L65-66) and decrypts anything else. *)
Definition server_sum (p q : Z) (cells : list (option Z)) : res (option hnum) :=
  do s <- server_product (nsquare (p * q)) cells;
  match s with
  | None => Ok None
  | Some c => do v <- homo_decrypt p q (str_int c); Ok (Some v)
  end.

(** modify_avg_query L248-255 with use_cursor: [concat(@sum, ',', @numTotalFeature)] with the
    count of set_total_feature_num L182-183. *)
Definition server_avg (p q : Z) (cells : list (option Z)) : res (option hnum) :=
  do s <- server_product (nsquare (p * q)) cells;
  match s with
  | None => Ok None
  | Some c => do v <- homo_decrypt p q (str_int c ++ [COMMA] ++ str_int (Z.of_nat (List.length cells)));
              Ok (Some v)
  end.

Fixpoint non_null {A} (l : list (option A)) : list A :=
  match l with [] => [] | Some x :: t => x :: non_null t | None :: t => non_null t end.

(** modify_sum_query/modify_avg_query without use_cursor: [CONCAT(GROUP_CONCAT(f), ',SUM')], the
    GROUP_CONCAT cut to the server's group_concat_max_len [maxlen] (the statements that raise it,
    L188-193, are never executed: remote_executor.py L201, L204 are commented out). *)
Definition group_concat (maxlen : nat) (cells : list (option Z)) : option pystr :=
  match non_null cells with
  | [] => None
  | l => Some (firstn maxlen (join [COMMA] (map str_int l)))
  end.
Definition concat_agg (maxlen : nat) (agg : pystr) (p q : Z) (cells : list (option Z)) : res (option hnum) :=
  match group_concat maxlen cells with
  | None => Ok None
  | Some t => do v <- homo_decrypt p q (t ++ [COMMA] ++ agg); Ok (Some v)
  end.
