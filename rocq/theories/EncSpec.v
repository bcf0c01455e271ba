(** Vocabulary for statements about encrypted tables: what a well-formed table description is,
    when an encrypted row represents a plaintext row, and which conditions are in the supported
    fragment.  Only the ciphers themselves are taken from the model. *)
From Coq Require Import String Ascii List NArith ZArith QArith Bool.
From Verif Require Import Base CryptoModel FuzzyModel PaillierModel JsonModel RewriteModel LikeSpec SqlSpec.
Import ListNotations.
Open Scope Z_scope.

(** A name the formatter prints without quotes. *)
Definition colname (kw : pystr -> bool) (s : pystr) : Prop := valid_name s = true /\ kw s = false.

(** The physical columns of a table, in the order of its logical columns. *)
Definition phys_of (k : pystr) (c : colmeta) : list pystr := if c_plain c then [k] else dvals (c_enc c).
Definition phys (m : tmeta) : list pystr := concat (map (fun kc => phys_of (fst kc) (snd kc)) (t_cols m)).

(** Names are usable, no two logical and no two physical columns share a name. *)
Record wf_table (kw : pystr -> bool) (m : tmeta) : Prop := {
  wf_log : NoDup (dkeys (t_cols m));
  wf_phys : NoDup (phys m);
  wf_names : forall k, In k (dkeys (t_cols m)) -> colname kw k;
  wf_pnames : forall n, In n (phys m) -> colname kw n;
  wf_enc : forall k c, dget (t_cols m) k = Some c -> NoDup (dkeys (c_enc c)) }.

(** Types that decode leaves alone. *)
Definition is_text_type (ty : pystr) : Prop := smem ty [u "int"; u "float"; u "double"] = false.
(** Texts the symmetric cipher keeps apart (C02): UTF-8 encodable, not ending in NUL. *)
Definition text_ok (s : pystr) : Prop := forallb scalar s = true /\ (s = [] \/ last s 0%N <> 0%N).
Definition int64 (z : Z) : Prop := - 2 ^ 63 <= z < 2 ^ 63.

(** Values an encrypted column may hold. *)
Definition typed (c : colmeta) (v : sqlv) : Prop :=
  match v with
  | VNull => True
  | VInt z => c_type c = u "int" /\ int64 z
  | VStr s => is_text_type (c_type c) /\ text_ok s
  | VFloat _ => False
  end.

(** [w] in the physical column for cipher [ci] represents [v]. *)
Definition enc_cell (E : env) (c : colmeta) (ci : pystr) (v w : sqlv) : Prop :=
  match v with
  | VNull => w = VNull
  | VInt z =>
    (ci = SYM /\ exists t, aes_encrypt (e_P E) (c_key c) (str_int z) = Ok t /\ w = VStr t) \/
    (ci = OPEC /\ exists e, env_ope E (c_key c) z = Ok e /\ w = VInt e) \/
    (ci = FUZ /\ exists t, fuzzy_encrypt (e_alnum E) (e_P E) (c_key c) (str_int z) = Ok t /\ w = VStr t) \/
    (ci = ARI /\ exists p q r t, c_homo c = Some (Some (p, q)) /\ homo_encrypt p q r z = Ok t /\ w = VStr t)
  | VStr s =>
    (ci = SYM /\ exists t, aes_encrypt (e_P E) (c_key c) s = Ok t /\ w = VStr t) \/
    (ci = FUZ /\ exists t, fuzzy_encrypt (e_alnum E) (e_P E) (c_key c) s = Ok t /\ w = VStr t)
  | VFloat _ => False
  end.

(** [er] in the encrypted table represents [pr] in the plaintext table. *)
Definition enc_row (E : env) (m : tmeta) (pr er : row) : Prop :=
  forall k c, dget (t_cols m) k = Some c ->
  exists v, dget pr k = Some v /\
    if c_plain c then dget er k = Some v
    else typed c v /\
         forall ci n, dget (c_enc c) ci = Some n -> exists w, dget er n = Some w /\ enc_cell E c ci v w.

(** The columns a condition mentions. *)
Fixpoint refs (kw : pystr -> bool) (j : json) : list pystr :=
  match j with
  | JStr s => if is_column kw s then [s] else []
  | JList l => concat (map (refs kw) l)
  | JDict d => (fix go (d : list (pystr * json)) : list pystr :=
                  match d with
                  | [] => []
                  | (k, x) :: r => (if smem k [u "literal"; u "null"] then [] else refs kw x) ++ go r
                  end) d
  | _ => []
  end.

Definition plain_col (m : tmeta) (k : pystr) : Prop :=
  exists c, dget (t_cols m) k = Some c /\ c_plain c = true.
Definition enc_col (m : tmeta) (k : pystr) (c : colmeta) (ci : pystr) : Prop :=
  dget (t_cols m) k = Some c /\ c_plain c = false /\ exists n, dget (c_enc c) ci = Some n.

Definition lit (s : pystr) : json := JDict [(u "literal", JStr s)].

(** One comparison or predicate of the supported fragment:
    - any predicate over plaintext columns only, where a comparison has the column on its left;
    - encrypted column = string constant, encrypted integer column = integer constant;
    - encrypted integer column < <= > >= integer constant;
    - encrypted text column LIKE a pattern each of whose parts contains a character that is no letter or digit.  ([al]
      says which characters are; a part of letters and digits would miss the values with other characters, C18.) *)
Definition leaf_ok (kw : pystr -> bool) (al : N -> bool) (m : tmeta) (k : pystr) (x : json) : Prop :=
  (smem k [u "and"; u "or"; u "literal"] = false /\
   (forall s, In s (refs kw (JDict [(k, x)])) -> plain_col m s) /\
   (smem k [u "eq"; u "gt"; u "lt"; u "gte"; u "lte"; u "like"] = true ->
    exists c rest, x = JList (JStr c :: rest) /\ plain_col m c)) \/
  (exists c cm s, k = u "eq" /\ x = JList [JStr c; lit s] /\
     enc_col m c cm SYM /\ is_text_type (c_type cm) /\ text_ok s) \/
  (exists c cm z, k = u "eq" /\ x = JList [JStr c; JInt z] /\
     enc_col m c cm SYM /\ c_type cm = u "int" /\ (length (str_int z) <= 32)%nat) \/
  (exists c cm z, smem k [u "gt"; u "lt"; u "gte"; u "lte"] = true /\ x = JList [JStr c; JInt z] /\
     enc_col m c cm OPEC /\ c_type cm = u "int" /\ int64 z) \/
  (exists c cm ps, k = u "like" /\ x = JList [JStr c; lit (join [PCT] ps)] /\
     enc_col m c cm FUZ /\ is_text_type (c_type cm) /\ pattern_ok al false ps).

(** The supported conditions: AND and OR over the above. *)
Fixpoint frag_cond (kw : pystr -> bool) (al : N -> bool) (m : tmeta) (j : json) : Prop :=
  match j with
  | JDict [(k, x)] =>
    if smem k [u "and"; u "or"] then
      match x with
      | JList l => (fix all (l : list json) : Prop :=
                      match l with [] => True | y :: r => frag_cond kw al m y /\ all r end) l
      | _ => False
      end
    else leaf_ok kw al m k x
  | _ => False
  end.
