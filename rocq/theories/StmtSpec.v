(** The supported statements, and histories of statements run directly on a plaintext database or
    through the proxy. *)
From Coq Require Import String Ascii List NArith ZArith QArith Bool.
From Verif Require Import Base CryptoModel FuzzyModel PaillierModel JsonModel RewriteModel SqlSpec EncSpec.
Import ListNotations.
Open Scope Z_scope.

(** The parsed forms the parser gives to INSERT, UPDATE, DELETE and SELECT (sql_parsing/utils.py
    L137-213, L422-451, L528-547). *)
Definition opt (k : string) (o : option json) : list (pystr * json) :=
  match o with Some x => [(u k, x)] | None => [] end.
Definition val (v : json) : json := JDict [(u "value", v)].
Definition insert_stmt (t : pystr) (cs : list pystr) (vs : list json) : json :=
  JDict [(u "insert", JStr t); (u "columns", JList (map JStr cs));
         (u "query", JDict [(u "select", JList (map val vs))])].
Definition update_stmt (t : pystr) (sets : list (pystr * json)) (w : option json) : json :=
  JDict ([(u "update", JStr t); (u "set", JDict sets)] ++ opt "where" w).
Definition delete_stmt (t : pystr) (w : option json) : json :=
  JDict ([(u "delete", JStr t)] ++ opt "where" w).
Definition select_stmt (t : pystr) (sel : json) (w o l off : option json) : json :=
  JDict ([(u "select", sel); (u "from", JStr t)] ++
         opt "where" w ++ opt "orderby" o ++ opt "limit" l ++ opt "offset" off).

(** Encrypted columns of the supported kinds: integers and texts, with a symmetric part. *)
Definition supported (c : colmeta) : Prop :=
  c_plain c = true \/
  ((c_type c = u "int" /\ (forall ci, In ci (dkeys (c_enc c)) -> In ci [SYM; OPEC; FUZ; ARI])) \/
   (is_text_type (c_type c) /\ (forall ci, In ci (dkeys (c_enc c)) -> In ci [SYM; FUZ]))) /\
  In SYM (dkeys (c_enc c)).

(** A metadata database the theorems are about: well-formed tables, supported columns, distinct
    physical table names. *)
Record wf_meta (kw : pystr -> bool) (M : dbmeta) : Prop := {
  wm_nodup : NoDup (dkeys M);
  wm_table : forall t m, dget M t = Some m -> wf_table kw m;
  wm_supp : forall t m k c, dget M t = Some m -> dget (t_cols m) k = Some c -> supported c;
  wm_anon : forall t t' m m', dget M t = Some m -> dget M t' = Some m' -> t_anon m = t_anon m' -> t = t' }.

(** Constants: numbers and quoted strings. *)
Definition constant (v : json) : Prop :=
  (exists z, v = JInt z) \/ (exists q, v = JFloat q) \/ (exists s, v = lit s).

(** The value of a constant. *)
Definition const_sql (v : json) : sqlv :=
  match v with
  | JInt z => VInt z
  | JFloat q => VFloat q
  | JDict [(_, JStr s)] => VStr s
  | _ => VNull
  end.

(** A constant of the column's type; [E] fixes the random number of a homomorphic part. *)
Definition const_ok (E : env) (k : pystr) (c : colmeta) (v : json) : Prop :=
  if c_plain c then constant v
  else (c_type c = u "int" /\ exists z, v = JInt z /\ int64 z /\
          (In ARI (dkeys (c_enc c)) ->
           exists p q t, c_homo c = Some (Some (p, q)) /\ homo_encrypt p q (e_rnd E k) z = Ok t)) \/
       (is_text_type (c_type c) /\ exists s, v = lit s /\ text_ok s).

(** For UPDATE: no homomorphic part; with a LIKE part, the text has at least three characters and
    no %. *)
Definition const_text (v : json) : pystr :=
  match v with JInt z => str_int z | JDict [(_, JStr s)] => s | _ => [] end.
Definition update_ok (E : env) (k : pystr) (c : colmeta) (v : json) : Prop :=
  const_ok E k c v /\
  (c_plain c = false ->
   ~ In ARI (dkeys (c_enc c)) /\
   (In FUZ (dkeys (c_enc c)) -> (3 <= length (const_text v))%nat /\ ~ In PCT (const_text v))).

Definition where_ok (kw : pystr -> bool) (al : N -> bool) (m : tmeta) (w : option json) : Prop :=
  match w with None => True | Some c => frag_cond kw al m c end.

(** ORDER BY a plaintext column in any direction or an encrypted integer column ascending. *)
Definition order_ok (m : tmeta) (o : option json) : Prop :=
  match o with
  | None => True
  | Some j =>
    (exists k, plain_col m k /\ (j = JDict [(u "value", JStr k)] \/
               exists s, j = JDict [(u "value", JStr k); (u "sort", JStr s)])) \/
    (exists k c, enc_col m k c OPEC /\ c_type c = u "int" /\ j = JDict [(u "value", JStr k)])
  end.

(** Select lists: *, columns, COUNT of rows, MIN or MAX of a plaintext or an encrypted integer
    column. *)
Definition select_ok (m : tmeta) (sel : json) : Prop :=
  sel = JStr (u "*") \/
  (exists k, In k (dkeys (t_cols m)) /\ sel = val (JStr k)) \/
  (exists ks, (forall k, In k ks -> In k (dkeys (t_cols m))) /\ sel = JList (map (fun k => val (JStr k)) ks)) \/
  sel = val (JDict [(u "count", JStr (u "*"))]) \/
  (exists f k, In f [u "max"; u "min"] /\ sel = val (JDict [(f, JStr k)]) /\
               (plain_col m k \/ exists c, enc_col m k c OPEC /\ c_type c = u "int")).

Inductive frag_stmt (kw : pystr -> bool) (E : env) (M : dbmeta) : json -> Prop :=
| frag_insert t m cs vs :
    dget M t = Some m -> NoDup cs -> length cs = length vs ->
    (forall k v, In (k, v) (combine cs vs) -> exists c, dget (t_cols m) k = Some c /\ const_ok E k c v) ->
    frag_stmt kw E M (insert_stmt t cs vs)
| frag_update t m sets w :
    dget M t = Some m -> NoDup (dkeys sets) ->
    (forall k v, In (k, v) sets -> exists c, dget (t_cols m) k = Some c /\ update_ok E k c v) ->
    where_ok kw (e_alnum E) m w ->
    frag_stmt kw E M (update_stmt t sets w)
| frag_delete t m w :
    dget M t = Some m -> where_ok kw (e_alnum E) m w -> frag_stmt kw E M (delete_stmt t w)
| frag_select t m sel w o l off :
    dget M t = Some m -> substrb (u "value") t = false ->
    select_ok m sel -> where_ok kw (e_alnum E) m w -> order_ok m o ->
    frag_stmt kw E M (select_stmt t sel w o l off).

(** The random numbers of the homomorphic encryptions change from statement to statement. *)
Definition with_rnd (E : env) (r : pystr -> Z) : env :=
  {| e_P := e_P E; e_alnum := e_alnum E; e_hyper := e_hyper E; e_ks := e_ks E; e_rnd := r;
     e_repr := e_repr E; e_eval := e_eval E |}.

(** One statement through the proxy: rewrite, execute, decrypt. *)
Definition proxy (kw : pystr -> bool) (E : env) (M : dbmeta) (D : db) (j : json)
    : res (db * list (list sqlv)) :=
  do '(j', table, st) <- rewrite_query E M j;
  do '(D', rs) <- exec kw D j';
  do out <- decrypt_result E M table st rs;
  Ok (D', out).

(** A history: every statement is answered with a result or an error; after an error the database
    is as before. *)
Fixpoint run (step : (pystr -> Z) -> db -> json -> res (db * list (list sqlv)))
    (D : db) (h : list ((pystr -> Z) * json)) : list (res (list (list sqlv))) :=
  match h with
  | [] => []
  | (r, j) :: rest =>
    match step r D j with
    | Ok (D', rs) => Ok rs :: run step D' rest
    | Err e => Err e :: run step D rest
    end
  end.

(** Empty tables as CREATE TABLE leaves them. *)
Definition empty_plain (M : dbmeta) : db :=
  map (fun tm => (fst tm, {| tb_cols := dkeys (t_cols (snd tm)); tb_rows := [] |})) M.
Definition empty_enc (M : dbmeta) : db :=
  map (fun tm => (t_anon (snd tm), {| tb_cols := phys (snd tm); tb_rows := [] |})) M.

(** An encrypted table, an encrypted database represents a plaintext one. *)
Record tab_rel (E : env) (m : tmeta) (pt et : tbl) : Prop := {
  tr_p : tb_cols pt = dkeys (t_cols m);
  tr_e : tb_cols et = phys m;
  tr_rows : Forall2 (enc_row E m) (tb_rows pt) (tb_rows et) }.
Definition db_rel (E : env) (M : dbmeta) (pdb edb : db) : Prop :=
  forall t m, dget M t = Some m ->
  exists pt et, dget pdb t = Some pt /\ dget edb (t_anon m) = Some et /\ tab_rel E m pt et.

(** The physical columns and values [ch] that a value [v] of the logical column [k] is stored as. *)
Definition chunk_ok (E : env) (k : pystr) (c : colmeta) (v : sqlv) (ch : list (pystr * sqlv)) : Prop :=
  dkeys ch = phys_of k c /\
  (c_plain c = true -> ch = [(k, v)]) /\
  (c_plain c = false -> forall ci n, In (ci, n) (c_enc c) -> exists w, In (n, w) ch /\ enc_cell E c ci v w).

(** The database after a history. *)
Fixpoint after (step : (pystr -> Z) -> db -> json -> res (db * list (list sqlv)))
    (D : db) (h : list ((pystr -> Z) * json)) : db :=
  match h with
  | [] => D
  | (r, j) :: rest => after step (match step r D j with Ok (D', _) => D' | Err _ => D end) rest
  end.
