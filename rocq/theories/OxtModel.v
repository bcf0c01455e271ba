(** * Model of the encrypted keyword search (/repo/sql_research/pysse/oxt.py)

    [md5] is an arbitrary function from bytes to natural numbers; AES is the model
    of [CryptoModel].  Python sets are lists without repetition in insertion order
    (simplified: Python iterates them in an unspecified order, the same one in
    [setup_edb] and [search_keyword]). *)
From Coq Require Import String Ascii List NArith ZArith Bool.
From Coq Require Import Init.Byte.
From Verif Require Import Base CryptoModel PaillierModel.
Import ListNotations.
Open Scope Z_scope.

(** oxt.py:9. *)
Definition mod_p : Z := 74253941.

(** Python dict with int keys: lookup, assignment; oxt.py:38, 55, 102, 110. *)
Definition zdict (V : Type) := list (Z * V).
Fixpoint zget {V} (d : zdict V) (k : Z) : option V :=
  match d with [] => None | (x, v) :: r => if Z.eqb x k then Some v else zget r k end.
Fixpoint zset {V} (d : zdict V) (k : Z) (v : V) : zdict V :=
  match d with
  | [] => [(k, v)]
  | (x, w) :: r => if Z.eqb x k then (x, v) :: r else (x, w) :: zset r k v
  end.
(** [set.add] and [in]; oxt.py:32, 59, 110, 127. *)
Definition zmem (x : Z) (l : list Z) : bool := existsb (Z.eqb x) l.
Definition zadd (x : Z) (l : list Z) : list Z := if zmem x l then l else l ++ [x].

Section Oxt.
Variable md5 : list byte -> N.
Variable P : prim.

(** [OXTRandom.prf], oxt.py:72-74; [word] is [str(word)]. *)
Definition prf (key word : pystr) : res Z :=
  do k <- utf8_encode key;
  do w <- utf8_encode word;
  Ok (Z.of_N (md5 (k ++ w))).

(** [OXTRandom.inverse], oxt.py:84-86: gmpy2.invert. *)
Definition inverse (z : Z) : res Z := invert z mod_p.

(** The five keys, oxt.py:16. *)
Record keys := Keys { k_s : pystr; k_x : pystr; k_i : pystr; k_z : pystr; k_t : pystr }.

(** The inner loop of [setup_edb], oxt.py:22-35. *)
Fixpoint setup_word (K : keys) (ke : pystr) (word : Z) (inds : list Z) (x_set : list Z)
  : res (list (pystr * Z) * list Z) :=
  match inds with
  | [] => Ok ([], x_set)
  | ind :: r =>
    do xi <- prf (k_i K) (str_int ind);
    let x_ind := xi mod mod_p in
    do zi <- prf (k_z K) (str_int word);
    do iz <- inverse (zi mod mod_p);
    let y := x_ind * iz mod mod_p in
    do xw <- prf (k_x K) (str_int word);
    do e <- aes_encrypt P ke (str_int ind);
    do ' (t, xs) <- setup_word K ke word r (zadd (xw * x_ind mod mod_p) x_set);
    Ok ((e, y) :: t, xs)
  end.

(** [OXT.setup_edb], oxt.py:14-40. *)
Fixpoint setup_loop (K : keys) (inv : zdict (list Z)) (t_dict : zdict (list (pystr * Z))) (x_set : list Z)
  : res (zdict (list (pystr * Z)) * list Z) :=
  match inv with
  | [] => Ok (t_dict, x_set)
  | (word, inds) :: r =>
    do ks <- prf (k_s K) (str_int word);
    do ' (t, xs) <- setup_word K (str_int ks) word inds x_set;
    do stag <- prf (k_t K) (str_int word);
    setup_loop K r (zset t_dict stag t) xs
  end.
Definition setup_edb (inv : zdict (list Z)) (K : keys) : res (zdict (list (pystr * Z)) * list Z) :=
  setup_loop K inv [] [].

(** [OXT.build_index], oxt.py:42-51. *)
Definition build_index (first : Z) (rest : list Z) (K : keys) : res (Z * list Z) :=
  do stag <- prf (k_t K) (str_int first);
  do zi <- prf (k_z K) (str_int first);
  let z := zi mod mod_p in
  do toks <- mapM (fun w => do xw <- prf (k_x K) (str_int w); Ok (z * xw mod mod_p)) rest;
  Ok (stag, toks).

(** [OXT.search_encryption], oxt.py:53-63. *)
Definition search_encryption (stag : Z) (toks : list Z) (t_set : zdict (list (pystr * Z))) (x_set : list Z)
  : res (list pystr) :=
  match zget t_set stag with
  | None => Err KeyError
  | Some t => Ok (map fst (filter (fun ey => forallb (fun j => zmem (j * snd ey mod mod_p) x_set) toks) t))
  end.

(** Decryption of the result by the client, oxt.py:149-150. *)
Definition decrypt_inds (K : keys) (first : Z) (es : list pystr) : res (list Z) :=
  do ks <- prf (k_s K) (str_int first);
  mapM (fun e => do s <- aes_decrypt P (str_int ks) e; parse_int s) es.

(** Client and server together: tokens, search, decryption; oxt.py:146-150. *)
Definition search_encrypted (K : keys) (first : Z) (rest : list Z)
    (edb : zdict (list (pystr * Z)) * list Z) : res (list Z) :=
  do ' (stag, toks) <- build_index first rest K;
  do es <- search_encryption stag toks (fst edb) (snd edb);
  decrypt_inds K first es.
End Oxt.

(** [RawOXT.encode_words] of one word, oxt.py:91-95: the UTF-8 bytes read as one
    number; [int('', 16)] raises ValueError. *)
Definition encode_word (w : pystr) : res Z :=
  do b <- utf8_encode w;
  match b with
  | [] => Err ValueError
  | _ => Ok (fold_left (fun a x => a * 256 + Z.of_N (bN x)) b 0)
  end.

(** [re.split(r'[\ \,\.]{1,}', s)], oxt.py:115: [run] tells that the last character
    was a separator, [cur] holds the current word reversed. *)
Definition is_sep (c : N) : bool := (N.eqb c 32 || N.eqb c 44 || N.eqb c 46)%N.
Fixpoint split_seps (run : bool) (cur : pystr) (s : pystr) : list pystr :=
  match s with
  | [] => [rev cur]
  | c :: r => if is_sep c then (if run then split_seps true [] r else rev cur :: split_seps true [] r)
              else split_seps false (c :: cur) r
  end.
(** [re.split(..., raw_text + ' ')[:-1]], oxt.py:115. *)
Definition text_words (t : pystr) : list pystr := removelast (split_seps false [] (t ++ [32%N])).

(** [split_raw_text_into_keywords], oxt.py:113-119. *)
Definition text_keywords (t : pystr) : res (list Z) :=
  do ws <- mapM encode_word (text_words t);
  Ok (fold_left (fun s w => zadd w s) ws []).

(** [build_forward_index], oxt.py:97-103, with the list of document numbers given
    (the default 1, 2, 3, ... is [default_inds]). *)
Fixpoint forward_loop (docs : list (Z * pystr)) (fwd : zdict (list Z)) : res (zdict (list Z)) :=
  match docs with
  | [] => Ok fwd
  | (ind, t) :: r => do ks <- text_keywords t; forward_loop r (zset fwd ind ks)
  end.
Definition build_forward_index (texts : list pystr) (inds : list Z) : res (zdict (list Z)) :=
  forward_loop (combine inds texts) [].
Definition default_inds (texts : list pystr) : list Z := map (fun i => Z.of_nat i + 1) (seq 0 (length texts)).

(** [build_inverted_index], oxt.py:105-111. *)
Definition add_posting (inv : zdict (list Z)) (w ind : Z) : zdict (list Z) :=
  zset inv w (zadd ind (match zget inv w with Some l => l | None => [] end)).
Definition build_inverted_index (fwd : zdict (list Z)) : zdict (list Z) :=
  fold_left (fun inv e => fold_left (fun inv w => add_posting inv w (fst e)) (snd e) inv) fwd [].

(** [search_keyword], oxt.py:121-129: the same search on the plaintext index. *)
Definition search_keyword (first : Z) (rest : list Z) (fwd inv : zdict (list Z)) : list Z :=
  filter (fun ind => forallb (fun w => zmem w (match zget fwd ind with Some l => l | None => [] end)) rest)
         (match zget inv first with Some l => l | None => [] end).
