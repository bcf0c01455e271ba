(** Key rotation: scheduler/utils/key_rotation_support.py.

    Simplifications: the data database is a state of any type [T] and a function [run] that says what
    one statement does on a connection, or that the server refuses it; connecting succeeds (every
    function opens its own connection, L22-28, L41-47, L72-78, L111-117, and leaves it to be closed by
    Python when the function returns, which rolls back what is not committed). *)
From Coq Require Import String Ascii List NArith ZArith Bool.
From Verif Require Import Base CryptoModel JsonModel RewriteModel MetaModel OfflineModel.
Import ListNotations.

(** What can be seen from outside, in order: the file is read, the table p_db_meta is read, a statement
    is sent to the data database on connection [c], a connection commits, p_db_meta is written. *)
Inductive ev := EFile | EMetaRead | EExec (c : nat) (s : pystr) | ECommit (c : nat) | EMetaWrite.

(** get_key_info, L39-67: the key, the entry of the column (not a name), the anonymous name of the
    table.  An empty table p_db_meta gives {}, and unpacking it (L13) raises ValueError. *)
Definition get_key_info (rows : list mrow) (db table feature : pystr) : res (pystr * colmeta * pystr) :=
  match rows with
  | [] => Err ValueError
  | _ =>
    do T <- dgetE (load_delta rows) db; do m <- dgetE T table; do c <- dgetE (t_cols m) feature;
    Ok (c_key c, c, t_anon m)
  end.

(** The text of L30: two adjacent literals, the second is a semicolon. *)
Definition update_text (table feature : pystr) : pystr := u "UPDATE " ++ table ++ u " SET " ++ feature ++ u " = " ++ u ";".
(** The text of L120. *)
Definition insert_text (table feature cipher : pystr) : pystr :=
  u "insert into " ++ table ++ u "(" ++ feature ++ u ") values(" ++ cipher ++ u ")".

(** encrypt_data, L123-128: [new_key.encrypt]; a key given as a text has no such method. *)
Definition encrypt_data (P : prim) (new_key : option pystr) (raw : list pystr) : res (list pystr) :=
  mapM (fun i => match new_key with Some k => aes_encrypt P k i | None => Err AttributeError end) raw.

(** update_proxy_db, L70-106: the loop at L99 meets the pair ('anonymous', text) first, and
    [t_value['anonymous']] of a text raises TypeError. *)
Definition update_proxy_db (rows : list mrow) (db table feature : pystr) : res unit :=
  match rows with
  | [] => Ok tt
  | _ =>
    do T <- dgetE (load_delta rows) db; do m <- dgetE T table; do c <- dgetE (t_cols m) feature;
    Err TypeError
  end.

Section Rotate.
Context {T : Type} (run : pystr -> T -> res T).

(** upload_encrypted_data, L109-121: one statement after the other on one connection, no commit. *)
Fixpoint upload (table feature : pystr) (ciphers : list pystr) (t : T) : list ev * res unit :=
  match ciphers with
  | [] => ([], Ok tt)
  | c :: r =>
    let s := insert_text table feature c in
    match run s t with
    | Err e => ([EExec 1 s], Err e)
    | Ok t' => let '(tr, x) := upload table feature r t' in (EExec 1 s :: tr, x)
    end
  end.

(** rotate_key, L10-18.  [ac]: the connections commit every statement at once (mysql.connector does not
    unless told so); [rows1], [rows2]: p_db_meta when it is read at L51 and at L82; [csv]: the rows of
    the file, None without csv_path (L34-37); [dec]: decrypt_data, L130-133; [repr]: the text of a
    column entry in an f-string. *)
Definition rotate_key (ac : bool) (P : prim) (repr : colmeta -> pystr)
    (dec : pystr -> option (list (list sqlv)) -> res (list pystr))
    (rows1 rows2 : list mrow) (csv : option (res (list (list sqlv)))) (db table feature : pystr)
    (new_key : option pystr) (t0 : T) : list ev * res unit :=
  let start := match csv with Some _ => [EFile] | None => [] end in
  match match csv with Some (Ok l) => Ok (Some l) | Some (Err e) => Err e | None => Ok None end with
  | Err e => (start, Err e)
  | Ok cipher =>
    match get_key_info rows1 db table feature with
    | Err e => (start ++ [EMetaRead], Err e)
    | Ok (key, col, enc_table) =>
      let upd := update_text enc_table (repr col) in
      let tr := start ++ [EMetaRead; EExec 0 upd] in
      match run upd t0 with
      | Err e => (tr, Err e)
      | Ok t1 =>
        match (do raw <- dec key cipher; encrypt_data P new_key raw) with
        | Err e => (tr, Err e)
        | Ok ciphers =>
          let '(tr2, x) := upload enc_table (repr col) ciphers (if ac then t1 else t0) in
          match x with
          | Err e => (tr ++ tr2, Err e)
          | Ok _ => (tr ++ tr2 ++ [EMetaRead], update_proxy_db rows2 db table feature)
          end
        end
      end
    end
  end.

(** What is stored for good after some events: a statement waits on its connection until that
    commits, or takes effect at once; a refused statement has no effect. *)
Definition effect (s : pystr) (t : T) : T := match run s t with Ok t' => t' | Err _ => t end.
Definition store_step (ac : bool) (w : T * (nat -> list pystr)) (e : ev) : T * (nat -> list pystr) :=
  let '(t, p) := w in
  match e with
  | EExec c s => if ac then (effect s t, p) else (t, fun c' => if Nat.eqb c' c then p c ++ [s] else p c')
  | ECommit c => (fold_left (fun t s => effect s t) (p c) t, fun c' => if Nat.eqb c' c then [] else p c')
  | _ => w
  end.
Definition stored (ac : bool) (t0 : T) (tr : list ev) : T := fst (fold_left (store_step ac) tr (t0, fun _ => [])).
End Rotate.

(** decrypt_data, L130-133: pool_decrypt; iterating over None (no csv_path) raises TypeError. *)
Definition is_decrypt_data (dec : pystr -> option (list (list sqlv)) -> res (list pystr)) : Prop :=
  (forall key, dec key None = Err TypeError) /\
  (forall key rows, exists f, pool_run false f rows CPU_NUM (dec key (Some rows))).
