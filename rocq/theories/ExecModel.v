(** Running a statement: scheduler/backend/executors/remote_executor.py, decrypt_executor.py,
    scheduler/backend/execution_context.py, controller/rewriter.py.

    The parser is outside the model: a request carries the result of parsing its text.  A statement
    sent to the database is either the text of a CREATE TABLE or a parsed statement that stands for
    its text (the formatter is modelled separately; simplification: it does not raise here). *)
From Coq Require Import String Ascii List NArith ZArith QArith Bool.
From Verif Require Import Base CryptoModel FuzzyModel EncodeModel JsonModel RewriteModel CreateModel MetaModel.
Import ListNotations.
Open Scope Z_scope.

(** scheduler/compile/keywords_lists.py L67-80. *)
Inductive qtype := QInsert | QReplace | QUpdate | QDelete | QSelect | QCreate | QAlter | QDrop.
(** SQL_TYPES, remote_executor.py L15-23. *)
Definition in_sql_types (t : qtype) : bool := match t with QReplace => false | _ => true end.

Inductive sent := SText (s : pystr) | SJson (j : json).

(** The arguments of invoke (execution_context.py L12): conn_info['db'], query_info['ciphertext'],
    the type of the text (Parser.query_type may raise ValueError), its parse, encrypted_cols, and
    the names that CREATE TABLE draws. *)
Record request := {
  q_db : pystr;
  q_type : res qtype;
  q_parsed : res json;
  q_enc : option (dict json);
  q_ciphertext : bool;
  q_fresh : nat -> pystr;
  q_anon : pystr }.

(** What the database and the connection do during one call. *)
Record answer := {
  a_cursor : option exn;
  a_exec : option exn;
  a_fetch : res (list (list sqlv));
  a_commit : option exn }.

(** What the code does with the connection. *)
Inductive action := Execute (s : sent) | Fetch | Commit | Close.

(** dispatch, L178-180: Rewriter.rewrite_query, rewrite_hander.py L19-31 and L72-77; rewrite_table,
    table.py L12-148, ends with Delta().update_delta.  [o]: outcome of a write of the metadata with
    the SQLite backend (MetaModel.persist). *)
Definition dispatch (E : env) (b : backend) (o : option exn) (d : delta) (r : request)
    : delta * res (sent * json * sstate) :=
  match q_parsed r with
  | Err e => (d, Err e)
  | Ok j =>
    match q_enc r with
    | Some enc =>
      match rewrite_table E (q_fresh r) (q_anon r) (dget (self_meta d) (q_db r)) j enc with
      | Err e => (d, Err e)
      | Ok (q, n, m) =>
        let '(d', x) := update_delta b o d (q_db r) n m in
        (d', match x with
             | Some e => Err e
             | None => Ok (SText q, JDict [(u "table", JStr n)], s_empty)
             end)
      end
    | None =>
      (d, do '(j', table, st) <- rewrite_query E (db_meta d (q_db r)) j; Ok (SJson j', table, st))
    end
  end.

(** [self.meta.delete_delta(self.str_db, self.table['table'])], L108, L110. *)
Definition forget (b : backend) (o : option exn) (d : delta) (db : pystr) (table : json) : delta * option exn :=
  match getitem table (u "table") with
  | Err e => (d, Some e)
  | Ok (JStr t) => delete_delta b o d db t
  | Ok _ => (d, Some TypeError) (* pop with an unhashable key, or a name that is no text *)
  end.

(** call, L76-116.  [inj]: inject_procedure, L188-207, arbitrary here (its own statements are left
    out of the list of actions).  The result: the metadata, self.result or the exception that
    escapes, and the actions. *)
Definition call (E : env) (inj : delta -> sent -> json -> res sent) (b : backend) (o : option exn)
    (d : delta) (r : request) (a : answer)
    : delta * res (option (list (list sqlv)) * json * sstate) * list action :=
  match q_type r with
  | Err e => (d, Err e, [])
  | Ok ty =>
    if negb (in_sql_types ty) then (d, Err NotImplementedErr, [])
    else
      let '(d1, x) := dispatch E b o d r in
      match x with
      | Err e => (d1, Err e, [])
      | Ok (q, table, st) =>
        match (match ty, table with
               | QSelect, JDict _ => Ok q
               | QSelect, _ => inj d1 q table
               | _, _ => Ok q
               end) with
        | Err e => (d1, Err e, [])
        | Ok q' =>
          match a_cursor a with
          | Some e => (d1, Err e, [])
          | None =>
            let '(d2, x2) := match a_exec a, ty with
                             | Some _, QCreate => forget b o d1 (q_db r) table
                             | _, _ => (d1, None)
                             end in
            match x2 with
            | Some e => (d2, Err e, [Execute q'])
            | None =>
              match ty with
              | QDrop =>
                let '(d3, x3) := forget b o d2 (q_db r) table in
                match x3 with
                | Some e => (d3, Err e, [Execute q'])
                | None => (d3, Ok (None, table, st), [Execute q'; Close])
                end
              | QSelect =>
                match a_fetch a with
                | Err e => (d2, Err e, [Execute q'; Fetch])
                | Ok rows => (d2, Ok (Some rows, table, st), [Execute q'; Fetch; Close])
                end
              | _ =>
                match a_commit a with
                | Some e => (d2, Err e, [Execute q'; Commit])
                | None => (d2, Ok (None, table, st), [Execute q'; Commit; Close])
                end
              end
            end
          end
        end
      end
  end.

(** invoke, execution_context.py L27-35 (the columns and types that columns_info adds are in the
    state), with DecryptQueryExecutor.decrypt, decrypt_executor.py L15-27. *)
Definition invoke (E : env) (inj : delta -> sent -> json -> res sent) (b : backend) (o : option exn)
    (d : delta) (r : request) (a : answer) : delta * res (list (list sqlv) * sstate) * list action :=
  let '(d', x, acts) := call E inj b o d r a in
  (d',
   do '(result, table, st) <- x;
   do M <- dgetE (self_meta d') (q_db r);
   match result with
   | Some (row :: rows) =>
     if q_ciphertext r then Ok (row :: rows, st)
     else do l <- decrypt_result E M table st (row :: rows); Ok (l, st)
   | _ => Ok ([], st)
   end, acts).

(** QueryHandler._post, handler.py L211-261, for a request without 'create_table', through
    ControllerDatabase.do_query, controller/rewriter.py L16-28: the encrypted columns are {}
    (handler.py L213, L250), which is not None. *)
Definition console_query (E : env) (inj : delta -> sent -> json -> res sent) (b : backend) (o : option exn)
    (d : delta) (r : request) (a : answer) : delta * res (list (list sqlv) * sstate) * list action :=
  invoke E inj b o d {| q_db := q_db r; q_type := q_type r; q_parsed := q_parsed r; q_enc := Some [];
                        q_ciphertext := q_ciphertext r; q_fresh := q_fresh r; q_anon := q_anon r |} a.

(** ** Connections: connect_db, L45-58 *)
Record conn_info := { ci_host : pystr; ci_port : Z; ci_db : pystr; ci_user : pystr; ci_password : pystr }.
(** L48 *)
Definition db_key (c : conn_info) : pystr := ci_host c ++ str_int (ci_port c) ++ ci_db c ++ ci_user c.
(** connection_pool, L25, with the arguments each PooledDB was made with; [reach] tells whether
    PooledDB(...), which opens five connections (dbutils/pooled_db.py L267-271), succeeds.  The
    result: the arguments of the pool that serves the request. *)
Definition connect_db (reach : conn_info -> option exn) (pools : dict conn_info) (c : conn_info)
    : dict conn_info * res conn_info :=
  match dget pools (db_key c) with
  | Some p => (pools, Ok p)
  | None => match reach c with
            | Some e => (pools, Err e)
            | None => (dset pools (db_key c) c, Ok c)
            end
  end.

(** ** encrypt_sql1, encrypt_sql2, decrypt_data: execution_context.py L43-64 *)
(** ConvertExecutor.dispatch, remote_executor.py L224-232; encrypted_cols is None. *)
Definition convert (E : env) (d : delta) (db : pystr) (parsed : res json) : res (sent * json * sstate) :=
  do j <- parsed; do '(j', table, st) <- rewrite_query E (db_meta d db) j; Ok (SJson j', table, st).

(** id_sql_map, L9, L57: the state recorded under an id.  The recorded db_meta is the dict of the
    database itself, not a copy; it stands here as the name of the database. *)
Record pending := { p_state : sstate; p_db : pystr; p_table : json }.

(** encrypt_sql2, L48-58, at the time [ms] in milliseconds. *)
Definition encrypt_sql2 (E : env) (d : delta) (ids : dict pending) (ms : Z) (db : pystr) (parsed : res json)
    : dict pending * res (sent * json * pystr) :=
  match convert E d db parsed with
  | Err e => (ids, Err e)
  | Ok (q, table, st) =>
    match dget (self_meta d) db with
    | None => (ids, Err KeyError)
    | Some _ => (dset ids (str_int ms) {| p_state := st; p_db := db; p_table := table |},
                 Ok (q, table, str_int ms))
    end
  end.

(** DecryptHandler.decrypt1, decrypt_handler.py L40-62: like decrypt, but L48 concatenates every cell
    to a str. *)
Fixpoint decrypt1_row (E : env) (M : dbmeta) (table : json) (names states : list pystr) (row : list sqlv)
    : res (list sqlv) :=
  match names, states, row with
  | n :: nr, s :: sr, v :: vr =>
    do _ <- match v with VStr _ => Ok tt | _ => Err TypeError end;
    do x <- (if seqb s PLAIN then Ok v else decrypt_cell E M table n s v);
    do xs <- decrypt1_row E M table nr sr vr;
    Ok (x :: xs)
  | _, _, _ => Ok []
  end.

(** decrypt_data, L61-64: the columns and the rows. *)
Definition decrypt_data (E : env) (d : delta) (ids : dict pending) (rows : list (list sqlv)) (id : pystr)
    : res (list pystr * list (list sqlv)) :=
  do p <- dgetE ids id;
  do l <- mapM (decrypt1_row E (db_meta d (p_db p)) (p_table p) (s_cols (p_state p)) (s_state (p_state p))) rows;
  Ok (s_cols (p_state p), l).

(** ** The endpoints: controller/rewriter.py *)
(** The answer of the encrypt endpoints: the text sent back, the table, the id. *)
Inductive reply := Plain (text : pystr) | Encrypted (q : sent) (table : json) (id : option pystr).

Definition version_query : pystr := u "select @@version_comment limit 1".
(** ControllerEncryptSql1, L66-82.  A pair is never empty, so that L81-82 are not reached. *)
Definition endpoint1 (E : env) (d : delta) (db text : pystr) (parsed : res json) : reply :=
  if seqb text version_query then Plain version_query
  else match convert E d db parsed with
       | Err _ => Plain text
       | Ok (q, table, _) => Encrypted q table None
       end.
(** ControllerEncryptSql2, L85-101. *)
Definition endpoint2 (E : env) (d : delta) (ids : dict pending) (ms : Z) (db text : pystr) (parsed : res json)
    : dict pending * reply :=
  if seqb text version_query then (ids, Plain version_query)
  else match encrypt_sql2 E d ids ms db parsed with
       | (ids', Err _) => (ids', Plain text)
       | (ids', Ok (q, table, id)) => (ids', Encrypted q table (Some id))
       end.
(** ControllerDecrypt, L104-117: [None] is the answer {'result': ''}.  decrypt_data gives a dict with
    two keys, which is never empty. *)
Definition endpoint_decrypt (E : env) (d : delta) (ids : dict pending) (rows : list (list sqlv)) (id : pystr)
    : option (list pystr * list (list sqlv)) :=
  match decrypt_data E d ids rows id with Ok x => Some x | Err _ => None end.

(** ** Batch insert, L127-176 *)
(** A cell of the CSV file as pandas reads it: integer, text, number, or NaN for an empty cell.
    Simplification: the values of a chunk are given cell by cell; NumPy's conversion of the
    encrypted cells to a common type (L164) changes an integer to its decimal text, which MySQL
    converts back for a numeric column, and is left out. *)
Inductive cell := CInt (z : Z) | CStr (s : pystr) | CFloat (q : Q) | CNan.
(** [str(i)] and [int(i)], L175. *)
Definition batch_str (E : env) (c : cell) : pystr :=
  match c with
  | CInt z => str_int z
  | CStr s => s
  | CFloat q => e_repr E (JFloat q)
  | CNan => u "nan"
  end.
Definition batch_int (c : cell) : res Z :=
  match c with
  | CInt z => Ok z
  | CStr s => parse_int s
  | CFloat q => Ok (trunc q)
  | CNan => Err ValueError
  end.
(** The cell itself (L161).  Simplification: NaN is sent as the text nan. *)
Definition batch_raw (c : cell) : sqlv :=
  match c with CInt z => VInt z | CStr s => VStr s | CFloat q => VFloat q | CNan => VStr (u "nan") end.

(** L148-159: one part; a cipher other than the three has no branch. *)
Definition batch_part (E : env) (c : colmeta) (x : cell) (enc : pystr) : res (list sqlv) :=
  if seqb enc OPEC then do z <- batch_int x; do e <- env_ope E (c_key c) z; Ok [VInt e]
  else if seqb enc SYM then do t <- aes_encrypt (e_P E) (c_key c) (batch_str E x); Ok [VStr t]
  else if seqb enc FUZ then do t <- fuzzy_encrypt (e_alnum E) (e_P E) (c_key c) (batch_str E x); Ok [VStr t]
  else Ok [].
(** L145-161: one column. *)
Definition batch_cell (E : env) (m : tmeta) (col : pystr) (x : cell) : res (list sqlv) :=
  do c <- dgetE (t_cols m) col;
  if c_plain c then Ok [batch_raw x]
  else do l <- mapM (batch_part E c x) (dkeys (c_enc c)); Ok (concat l).
(** One row; [data[idx]] raises when the file has fewer columns (L150, L161), further columns are
    ignored.  Simplification: the code encrypts a chunk column by column, so that of several errors
    another one may be raised. *)
Fixpoint batch_row (E : env) (m : tmeta) (cols : list pystr) (row : list cell) : res (list sqlv) :=
  match cols, row with
  | [], _ => Ok []
  | _ :: _, [] => Err IndexError
  | c :: cr, x :: xr => do a <- batch_cell E m c x; do b <- batch_row E m cr xr; Ok (a ++ b)
  end.
(** L134-140: the physical columns of the INSERT. *)
Definition batch_col (m : tmeta) (col : pystr) : res (list pystr) :=
  do c <- dgetE (t_cols m) col; Ok (if c_plain c then [col] else dvals (c_enc c)).
Definition batch_columns (m : tmeta) (cols : list pystr) : res (list pystr) :=
  do l <- mapM (batch_col m) cols; Ok (concat l).
(** L162-166: one row is sent; the connector raises when the numbers of placeholders and of values
    differ, or when the database rejects the row ([accept] says when). *)
Definition send_row (accept : list (pystr * sqlv) -> option exn) (pcs : list pystr) (vs : list sqlv)
    : res (list (pystr * sqlv)) :=
  if Nat.eqb (length pcs) (length vs) then
    match accept (combine pcs vs) with Some e => Err e | None => Ok (combine pcs vs) end
  else Err DbError.
(** L143-168: chunks are committed one by one.  The result: the rows committed, and the exception
    that stopped the rest. *)
Fixpoint batch_chunks (E : env) (accept : list (pystr * sqlv) -> option exn) (m : tmeta) (cols pcs : list pystr)
    (chunks : list (list (list cell))) : list (list (pystr * sqlv)) * option exn :=
  match chunks with
  | [] => ([], None)
  | ch :: r =>
    match (do rows <- mapM (batch_row E m cols) ch; mapM (send_row accept pcs) rows) with
    | Err e => ([], Some e)
    | Ok done => let '(rest, x) := batch_chunks E accept m cols pcs r in (done ++ rest, x)
    end
  end.
(** read_csv(..., chunksize=20000): chunks of 20000 rows (L141, L143); [n] is that number. *)
Fixpoint chunked {A} (fuel n : nat) (l : list A) : list (list A) :=
  match fuel with
  | O => []
  | S f => match l with [] => [] | _ => firstn n l :: chunked f n (skipn n l) end
  end.
Definition chunk_size : N := 20000. (* 10 ** 4 * 2 *)
Definition batch_insert (E : env) (accept : list (pystr * sqlv) -> option exn) (M : dbmeta) (t : pystr)
    (cols : list pystr) (file : list (list cell)) : list (list (pystr * sqlv)) * option exn :=
  match (do m <- dgetE M t; do pcs <- batch_columns m cols; Ok (m, pcs)) with
  | Err e => ([], Some e)
  | Ok (m, pcs) => batch_chunks E accept m cols pcs (chunked (length file) (N.to_nat chunk_size) file)
  end.
