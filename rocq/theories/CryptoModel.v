(** Symmetric ciphers of EulerDB: scheduler/crypto/encrypt.py L157-L236.

    The block functions of AES and SM4 and the SHA-256 key derivation are
    parameters ([prim]); everything around them (UTF-8, padding, ECB chaining,
    base64, hex) is modelled. *)
From Coq Require Import String Ascii List NArith ZArith Bool Arith.
From Coq Require Import Init.Byte.
From Verif Require Import Base.
Import ListNotations.

Definition bN (b : byte) : N := Byte.to_N b.

(** A number below 256 as a byte. *)
Definition Nb (n : N) : byte :=
  match Byte.of_N (n mod 256) with Some b => b | None => x00 end.

(** ** UTF-8: Python's [str.encode('utf8')] and [bytes.decode('utf8')]
    (used in encrypt.py L175, L178, L182).  Strict codec: surrogates and
    code points above 0x10FFFF are rejected when encoding; overlong forms,
    surrogates, stray and missing continuation bytes when decoding. *)
Definition scalar (c : N) : bool :=
  ((c <? 55296) || ((57344 <=? c) && (c <? 1114112)))%N.

Definition utf8_enc1 (c : N) : res (list byte) :=
  (if c <? 128 then Ok [Nb c]
   else if c <? 2048 then Ok [Nb (192 + c / 64); Nb (128 + c mod 64)]
   else if c <? 65536 then
     if (55296 <=? c) && (c <? 57344) then Err UnicodeError
     else Ok [Nb (224 + c / 4096); Nb (128 + (c / 64) mod 64); Nb (128 + c mod 64)]
   else if c <? 1114112 then
     Ok [Nb (240 + c / 262144); Nb (128 + (c / 4096) mod 64);
         Nb (128 + (c / 64) mod 64); Nb (128 + c mod 64)]
   else Err UnicodeError)%N.

Fixpoint utf8_encode (s : pystr) : res (list byte) :=
  match s with
  | [] => Ok []
  | c :: r => do b <- utf8_enc1 c; do bs <- utf8_encode r; Ok (b ++ bs)
  end.

(** Continuation byte: value of the low six bits. *)
Definition cont (b : byte) : option N :=
  (if (128 <=? bN b) && (bN b <? 192) then Some (bN b - 128) else None)%N.

Fixpoint utf8_decode (l : list byte) : res pystr :=
  (match l with
   | [] => Ok []
   | b :: r =>
     let x := bN b in
     if x <? 128 then do s <- utf8_decode r; Ok (x :: s)
     else if (194 <=? x) && (x <? 224) then
       match r with
       | b1 :: r1 =>
         match cont b1 with
         | Some c1 => do s <- utf8_decode r1; Ok (((x - 192) * 64 + c1) :: s)
         | None => Err UnicodeError
         end
       | _ => Err UnicodeError
       end
     else if (224 <=? x) && (x <? 240) then
       match r with
       | b1 :: b2 :: r2 =>
         match cont b1, cont b2 with
         | Some c1, Some c2 =>
           let c := (x - 224) * 4096 + c1 * 64 + c2 in
           if (2048 <=? c) && scalar c
           then do s <- utf8_decode r2; Ok (c :: s) else Err UnicodeError
         | _, _ => Err UnicodeError
         end
       | _ => Err UnicodeError
       end
     else if (240 <=? x) && (x <? 245) then
       match r with
       | b1 :: b2 :: b3 :: r3 =>
         match cont b1, cont b2, cont b3 with
         | Some c1, Some c2, Some c3 =>
           let c := (x - 240) * 262144 + c1 * 4096 + c2 * 64 + c3 in
           if (65536 <=? c) && scalar c
           then do s <- utf8_decode r3; Ok (c :: s) else Err UnicodeError
         | _, _, _ => Err UnicodeError
         end
       | _ => Err UnicodeError
       end
     else Err UnicodeError
   end)%N.

(** ** Base64: Python's [b64encode] and [b64decode] (encrypt.py L182, L185, L225, L236).
    The decoder is modelled on canonical input only; Python's decoder also skips
    characters outside the alphabet, the model raises ValueError there. *)
Definition b64_char (n : N) : N :=
  (if n <? 26 then n + 65            (* A-Z *)
   else if n <? 52 then n - 26 + 97  (* a-z *)
   else if n <? 62 then n - 52 + 48  (* 0-9 *)
   else if n =? 62 then 43           (* + *)
   else 47)%N.                       (* / *)

Definition b64_val (c : N) : option N :=
  (if (65 <=? c) && (c <=? 90) then Some (c - 65)
   else if (97 <=? c) && (c <=? 122) then Some (c - 97 + 26)
   else if (48 <=? c) && (c <=? 57) then Some (c - 48 + 52)
   else if c =? 43 then Some 62
   else if c =? 47 then Some 63
   else None)%N.

Definition EQ : N := 61%N. (* = *)

Fixpoint b64encode (l : list byte) : pystr :=
  (match l with
   | [] => []
   | [a] => let v := bN a * 16 in
            [b64_char (v / 64); b64_char (v mod 64); EQ; EQ]
   | [a; b] => let v := (bN a * 256 + bN b) * 4 in
               [b64_char (v / 4096); b64_char ((v / 64) mod 64); b64_char (v mod 64); EQ]
   | a :: b :: c :: r =>
     let v := bN a * 65536 + bN b * 256 + bN c in
     b64_char (v / 262144) :: b64_char ((v / 4096) mod 64)
       :: b64_char ((v / 64) mod 64) :: b64_char (v mod 64) :: b64encode r
   end)%N.

Fixpoint b64decode (s : pystr) : res (list byte) :=
  (match s with
   | [] => Ok []
   | c1 :: c2 :: c3 :: c4 :: r =>
     match b64_val c1, b64_val c2, b64_val c3, b64_val c4 with
     | Some v1, Some v2, Some v3, Some v4 =>
       let v := v1 * 262144 + v2 * 4096 + v3 * 64 + v4 in
       do bs <- b64decode r; Ok (Nb (v / 65536) :: Nb ((v / 256) mod 256) :: Nb (v mod 256) :: bs)
     | Some v1, Some v2, Some v3, None =>
       match r with
       | [] => if c4 =? EQ then
                 let v := (v1 * 4096 + v2 * 64 + v3) / 4 in
                 Ok [Nb (v / 256); Nb (v mod 256)]
               else Err ValueError
       | _ => Err ValueError
       end
     | Some v1, Some v2, None, None =>
       match r with
       | [] => if (c3 =? EQ) && (c4 =? EQ) then Ok [Nb ((v1 * 64 + v2) / 16)]
               else Err ValueError
       | _ => Err ValueError
       end
     | _, _, _, _ => Err ValueError
     end
   | _ => Err ValueError
   end)%N.

(** ** Block ciphers (external: [cryptography] for AES, [gmssl] for SM4). *)
Record prim := {
  kdf : pystr -> list byte;                          (* sha256(key.encode('utf8')), L162 L195 *)
  kdfb : list byte -> list byte;                     (* sha256(key) on bytes, L221 *)
  aes_enc_block : list byte -> list byte -> list byte; (* algorithms.AES(key), one block *)
  aes_dec_block : list byte -> list byte -> list byte;
  sm4_enc_block : list byte -> list byte -> list byte; (* CryptSM4, one block *)
  sm4_dec_block : list byte -> list byte -> list byte
}.

(** The behaviour assumed of a block cipher: a length-preserving map with a left
    inverse on 16-byte blocks.  Nothing is assumed about secrecy. *)
Record prim_ok (P : prim) : Prop := {
  aes_len : forall k b, length b = 16 -> length (aes_enc_block P k b) = 16;
  aes_inv : forall k b, length b = 16 -> aes_dec_block P k (aes_enc_block P k b) = b;
  sm4_len : forall k b, length b = 16 -> length (sm4_enc_block P k b) = 16;
  sm4_inv : forall k b, length b = 16 -> sm4_dec_block P k (sm4_enc_block P k b) = b
}.

(** ECB over whole blocks: [cipher.update(raw) + cipher.finalize()] with modes.ECB()
    (encrypt.py L179-181, L186-188).  [finalize] raises ValueError when the length is
    not a multiple of the block size. *)
Fixpoint ecb_blocks (f : list byte -> list byte) (n : nat) (l : list byte) : list byte :=
  match n with
  | O => []
  | S n' => f (firstn 16 l) ++ ecb_blocks f n' (skipn 16 l)
  end.

Definition ecb (f : list byte -> list byte) (l : list byte) : res (list byte) :=
  if Nat.eqb (length l mod 16) 0 then Ok (ecb_blocks f (length l / 16) l) else Err ValueError.

(** AESCipher.pad, encrypt.py L164-171: zero bytes up to a multiple of 16, none
    when already a multiple. *)
Definition aes_pad (l : list byte) : list byte :=
  let m := length l mod 16 in
  if Nat.eqb m 0 then l else l ++ repeat x00 (16 - m).

(** AESCipher.unpad, encrypt.py L173-175. *)
Definition aes_unpad (l : list byte) : res pystr :=
  do s <- utf8_decode l; Ok (rstrip 0 s).

(** AESCipher.encrypt, encrypt.py L177-182 (constructor L161-162 inlined). *)
Definition aes_encrypt (P : prim) (key raw : pystr) : res pystr :=
  do b <- utf8_encode raw;
  do c <- ecb (aes_enc_block P (kdf P key)) (aes_pad b);
  Ok (b64encode c).

(** AESCipher.decrypt, encrypt.py L184-189. *)
Definition aes_decrypt (P : prim) (key enc : pystr) : res pystr :=
  do c <- b64decode enc;
  do b <- ecb (aes_dec_block P (kdf P key)) c;
  aes_unpad b.

(** ** AESCipherBytes, encrypt.py L218-236, and the module level [pad]/[unpad], L31-32. *)

(** [pad], L31: on str; always adds between 1 and 16 characters. *)
Definition str_pad (s : pystr) : pystr :=
  let k := 16 - length s mod 16 in s ++ repeat (N.of_nat k) k.

(** [unpad], L32, on bytes: [s[:-ord(s[len(s)-1:])]].  On an empty argument
    [ord(b'')] raises TypeError; [s[:-0]] is empty; [s[:-k]] with k > len is empty. *)
Definition bytes_unpad (s : list byte) : res (list byte) :=
  match rev s with
  | [] => Err TypeError
  | b :: _ =>
    let k := N.to_nat (bN b) in
    if Nat.eqb k 0 then Ok [] else Ok (firstn (length s - k) s)
  end.

(** Argument of AESCipherBytes.encrypt: bytes or str (isinstance test, L224). *)
Inductive raw_arg := RBytes (b : list byte) | RStr (s : pystr).

(** AESCipherBytes.encrypt, L223-230. *)
Definition aesb_encrypt (P : prim) (key : list byte) (raw : raw_arg) : res (list byte) :=
  let s := match raw with RBytes b => b64encode b | RStr s => s end in
  do b <- utf8_encode (str_pad s);
  ecb (aes_enc_block P (kdfb P key)) b.

(** b64decode of a bytes argument (L236): bytes are read as ASCII. *)
Definition b64decode_bytes (b : list byte) : res (list byte) := b64decode (map bN b).

(** AESCipherBytes.decrypt, L232-236. *)
Definition aesb_decrypt (P : prim) (key : list byte) (enc : list byte) : res (list byte) :=
  do b <- ecb (aes_dec_block P (kdfb P key)) enc;
  do m <- bytes_unpad b;
  b64decode_bytes m.

(** ** SM4CipherBytes, encrypt.py L192-215.  [crypt_ecb] of gmssl: PKCS7 padding, then
    ECB; on decryption ECB, then removal of as many bytes as the last one says.  These two
    are gmssl behaviour, recorded here as assumption. *)
Definition pkcs7_pad (l : list byte) : list byte :=
  let k := 16 - length l mod 16 in l ++ repeat (Nb (N.of_nat k)) k.

Definition sm4_crypt_enc (P : prim) (k : list byte) (l : list byte) : res (list byte) :=
  ecb (sm4_enc_block P k) (pkcs7_pad l).

Definition sm4_crypt_dec (P : prim) (k : list byte) (l : list byte) : res (list byte) :=
  do b <- ecb (sm4_dec_block P k) l; bytes_unpad b.

(** [bytes.hex()] and [bytes.fromhex] (L206, L212); fromhex is modelled on lower-case
    input without blanks. *)
Definition hex_char (n : N) : N := (if n <? 10 then n + 48 else n - 10 + 97)%N.
Definition hex_val (c : N) : option N :=
  (if (48 <=? c) && (c <=? 57) then Some (c - 48)
   else if (97 <=? c) && (c <=? 102) then Some (c - 97 + 10) else None)%N.
Fixpoint hex_encode (l : list byte) : pystr :=
  match l with
  | [] => []
  | b :: r => hex_char (bN b / 16)%N :: hex_char (bN b mod 16)%N :: hex_encode r
  end.
Fixpoint hex_decode (s : pystr) : res (list byte) :=
  match s with
  | [] => Ok []
  | a :: b :: r =>
    match hex_val a, hex_val b with
    | Some x, Some y => do l <- hex_decode r; Ok (Nb (x * 16 + y) :: l)
    | _, _ => Err ValueError
    end
  | _ => Err ValueError
  end.

(** SM4CipherBytes.encrypt on a str argument, L198-206. *)
Definition sm4_encrypt (P : prim) (key raw : pystr) : res pystr :=
  do b <- utf8_encode raw;
  do c <- sm4_crypt_enc P (kdf P key) b;
  Ok (hex_encode c).

(** SM4CipherBytes.decrypt on a str argument, L208-215. *)
Definition sm4_decrypt (P : prim) (key enc : pystr) : res pystr :=
  do c <- hex_decode enc;
  do b <- sm4_crypt_dec P (kdf P key) c;
  utf8_decode b.

(** A concrete instance used in examples: the identity block cipher. *)
Definition prim_id : prim := {|
  kdf := fun _ => []; kdfb := fun _ => [];
  aes_enc_block := fun _ b => b; aes_dec_block := fun _ b => b;
  sm4_enc_block := fun _ b => b; sm4_dec_block := fun _ b => b |}.
(** A second instance, whose output depends on the key: rotate the block by the first
    byte of the key string. *)
Definition rotl (n : nat) (b : list byte) : list byte := skipn n b ++ firstn n b.
Definition prim_rot : prim := {|
  kdf := fun k => map Nb k; kdfb := fun k => k;
  aes_enc_block := fun k b => rotl (N.to_nat (bN (hd x00 k)) mod 16) b;
  aes_dec_block := fun k b => rotl (16 - N.to_nat (bN (hd x00 k)) mod 16) b;
  sm4_enc_block := fun k b => rotl (N.to_nat (bN (hd x00 k)) mod 16) b;
  sm4_dec_block := fun k b => rotl (16 - N.to_nat (bN (hd x00 k)) mod 16) b |}.
