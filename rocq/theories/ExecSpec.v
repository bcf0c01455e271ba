(** Vocabulary for the statements about running statements (C40-C45, C71-C74). *)
From Coq Require Import String Ascii List NArith ZArith QArith Bool.
From Verif Require Import Base JsonModel RewriteModel SqlSpec CreateModel MetaModel MetaSpec ExecModel.
Import ListNotations.
Open Scope Z_scope.

(** The same answer with another outcome of execute. *)
Definition with_exec (a : answer) (x : option exn) : answer :=
  {| a_cursor := a_cursor a; a_exec := x; a_fetch := a_fetch a; a_commit := a_commit a |}.
(** After a failed execute there is no result set to fetch. *)
Definition answer_ok (a : answer) : Prop := a_exec a <> None -> exists e, a_fetch a = Err e.
(** Nothing goes wrong on the side of the database. *)
Definition accepted (a : answer) : Prop := a_cursor a = None /\ a_exec a = None /\ a_commit a = None.

(** ** The physical tables of the database server: pairs of database and name *)
(** CREATE TABLE IF NOT EXISTS name(...): the text between the keywords and the parenthesis. *)
Fixpoint until_paren (s : pystr) : pystr :=
  match s with [] => [] | c :: r => if N.eqb c 40 then [] else c :: until_paren r end.
Definition created_name (q : pystr) : pystr :=
  until_paren (skipn (length (u "CREATE TABLE IF NOT EXISTS ")) q).
Definition is_pair (db n : pystr) (p : pystr * pystr) : bool := seqb (fst p) db && seqb (snd p) n.
(** The effect of a statement that the server accepts. *)
Definition ddl (phys : list (pystr * pystr)) (db : pystr) (s : sent) : list (pystr * pystr) :=
  match s with
  | SText q => if existsb (is_pair db (created_name q)) phys then phys else (db, created_name q) :: phys
  | SJson (JDict j) =>
    match dget j (u "drop") with
    | Some (JDict e) => match dget e (u "table") with
                        | Some (JStr n) => filter (fun p => negb (is_pair db n p)) phys
                        | _ => phys
                        end
    | _ => phys
    end
  | _ => phys
  end.
(** The effect of the actions of a call, when execute has the given outcome. *)
Definition on_server (phys : list (pystr * pystr)) (db : pystr) (x : option exn) (acts : list action)
    : list (pystr * pystr) :=
  match x with
  | Some _ => phys
  | None => fold_left (fun p act => match act with Execute s => ddl p db s | _ => p end) acts phys
  end.

(** One call on the process and the server. *)
Section World.
Variables (E : env) (inj : delta -> sent -> json -> res sent).
Definition world := (delta * list (pystr * pystr))%type.
Definition world_step (w : world) (ra : request * answer) : world :=
  let '(d', _, acts) := call E inj MySQL None (fst w) (fst ra) (snd ra) in
  (d', on_server (snd w) (q_db (fst ra)) (a_exec (snd ra)) acts).
Definition world_run (w : world) (h : list (request * answer)) : world := fold_left world_step h w.

(** A CREATE TABLE of a table that is not known, under a physical name that is not used in the
    database and has no parenthesis.  Other requests are arbitrary. *)
Definition careful (w : world) (r : request) : Prop :=
  forall enc j n m q, q_enc r = Some enc -> q_parsed r = Ok j ->
    rewrite_table E (q_fresh r) (q_anon r) (dget (self_meta (fst w)) (q_db r)) j enc = Ok (q, n, m) ->
    q_type r = Ok QCreate /\
    in_memory (fst w) (q_db r) n = None /\ ~ In (q_db r, q_anon r) (snd w) /\ ~ In 40%N (q_anon r).
(** The type of a statement without encrypted columns is the one its parse shows. *)
Definition typed (r : request) : Prop :=
  q_enc r = None -> forall j, q_parsed r = Ok j ->
  (q_type r = Ok QDrop <-> exists n, j = JDict [(u "drop", JDict [(u "table", JStr n)])]) /\
  (q_type r <> Ok QDrop -> exists d, j = JDict d /\ dget d (u "drop") = None) /\
  q_type r <> Ok QCreate.
Fixpoint careful_run (w : world) (h : list (request * answer)) : Prop :=
  match h with
  | [] => True
  | ra :: r => accepted (snd ra) /\ careful w (fst ra) /\ typed (fst ra) /\ careful_run (world_step w ra) r
  end.
End World.

(** inject_procedure yields a SELECT. *)
Definition yields_select (inj : delta -> sent -> json -> res sent) : Prop :=
  forall d q t q', inj d q t = Ok q' -> exists e, q' = SJson (JDict e) /\ dget e (u "drop") = None.

(** The metadata describes exactly the physical tables. *)
Definition agree (w : world) : Prop :=
  forall db a, In (db, a) (snd w) <-> exists t m, in_memory (fst w) db t = Some m /\ t_anon m = a.

(** ** Connections *)
(** The first request that could connect under a key. *)
Fixpoint first_under (reach : conn_info -> option exn) (k : pystr) (h : list conn_info) : option conn_info :=
  match h with
  | [] => None
  | c :: r => if seqb (db_key c) k && match reach c with None => true | Some _ => false end
              then Some c else first_under reach k r
  end.
Definition pools_after (reach : conn_info -> option exn) (h : list conn_info) : dict conn_info :=
  fold_left (fun p c => fst (connect_db reach p c)) h [].

(** ** Pending decryptions: a call of encrypt_sql2 with the metadata and the clock at that time *)
Record e2call := { e2_meta : delta; e2_ms : Z; e2_db : pystr; e2_parsed : res json }.
Definition e2_step (E : env) (ids : dict pending) (c : e2call) : dict pending :=
  fst (encrypt_sql2 E (e2_meta c) ids (e2_ms c) (e2_db c) (e2_parsed c)).
Definition e2_run (E : env) (ids : dict pending) (h : list e2call) : dict pending := fold_left (e2_step E) h ids.
(** The call was answered with an id. *)
Definition answered (E : env) (c : e2call) : Prop := exists x, snd (encrypt_sql2 E (e2_meta c) [] (e2_ms c) (e2_db c) (e2_parsed c)) = Ok x.
(** Decryption with the column state of a given query. *)
Definition decrypt_with (E : env) (d : delta) (db : pystr) (table : json) (st : sstate) (rows : list (list sqlv))
    : res (list pystr * list (list sqlv)) :=
  do l <- mapM (decrypt1_row E (db_meta d db) table (s_cols st) (s_state st)) rows; Ok (s_cols st, l).

(** ** Batch insert: the constant an INSERT would contain for a CSV cell *)
Definition cell_json (c : cell) : json :=
  match c with
  | CInt z => JInt z
  | CStr s => JDict [(u "literal", JStr s)]
  | CFloat q => JFloat q
  | CNan => JNull
  end.
Definition batch_parts : list pystr := [OPEC; SYM; FUZ].
Definition batch_column (c : colmeta) : Prop :=
  c_plain c = true \/
  ((forall ci, In ci (dkeys (c_enc c)) -> In ci batch_parts) /\ c_type c <> u "float" /\ c_type c <> u "double").
Definition int_or_text (c : cell) : Prop := match c with CInt _ | CStr _ => True | _ => False end.
(** A column with a part for which the batch insert has no branch. *)
Definition odd_column (c : colmeta) : Prop := c_plain c = false /\ exists ci, In ci (dkeys (c_enc c)) /\ ~ In ci batch_parts.
(** A row given as the pairs of columns and values, stored in a table: unmentioned columns are NULL. *)
Definition stored (tb : tbl) (r : row) : tbl :=
  {| tb_cols := tb_cols tb; tb_rows := tb_rows tb ++ [map (fun c => (c, SqlSpec.cell r c)) (tb_cols tb)] |}.
(** What one row becomes. *)
Definition row_sent (E : env) (accept : list (pystr * sqlv) -> option exn) (m : tmeta) (cols pcs : list pystr) (row : list cell) : res (list (pystr * sqlv)) :=
  do vs <- batch_row E m cols row; send_row accept pcs vs.
