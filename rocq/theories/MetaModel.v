(** The metadata of the proxy: class Delta, scheduler/schema/metadata.py L94-168.  [meta] maps
    database name to table name to table metadata; a copy of it is kept in the table p_db_meta of
    the metadata database. *)
From Coq Require Import String Ascii List NArith ZArith Bool.
From Verif Require Import Base JsonModel RewriteModel.
Import ListNotations.

(** One row of p_db_meta, L142-143: database_name, 'mysql', table_name, table_anonymous, the JSON
    text of {column: entry}, ''.  Simplification: json.dumps followed by json.loads is the identity
    on the entries (dicts of str, bool, lists of int), and column widths do not truncate. *)
Record mrow := { r_db : pystr; r_table : pystr; r_anon : pystr; r_name : pystr; r_col : colmeta }.

Definition store := dict dbmeta.

(** The singleton (L94-105).  [d_class]: the class attribute, set at L104.  [d_inst]: the attribute
    of the instance once L116 has assigned it, shadowing the class attribute.  [d_rows]: p_db_meta,
    in the order in which SELECT * returns it (order of insertion). *)
Record delta := { d_class : store; d_inst : option store; d_rows : list mrow }.

(** self.meta *)
Definition self_meta (d : delta) : store := match d_inst d with Some m => m | None => d_class d end.
(** A change of the dict that self.meta refers to. *)
Definition mutate (d : delta) (m : store) : delta :=
  match d_inst d with
  | Some _ => {| d_class := d_class d; d_inst := Some m; d_rows := d_rows d |}
  | None => {| d_class := m; d_inst := None; d_rows := d_rows d |}
  end.

(** config['meta']['type'] (L17-27). *)
Inductive backend := MySQL | SQLite.

(** test_connection, L30-41, followed by the statement.  A sqlite3 connection has no ping method, so
    that L33-40 always opens a MySQL connection instead: the rows of the SQLite file are left alone
    and the outcome [o] is whatever that MySQL connection gives.  For MySQL, a lost connection is
    opened again; simplification: the statement itself then succeeds. *)
Definition persist (b : backend) (o : option exn) (d : delta) (f : list mrow -> list mrow)
    : delta * option exn :=
  match b with
  | MySQL => ({| d_class := d_class d; d_inst := d_inst d; d_rows := f (d_rows d) |}, None)
  | SQLite => (d, o)
  end.

(** update_db_meta, L133-147, for one table. *)
Definition table_rows (db t : pystr) (m : tmeta) : list mrow :=
  map (fun kc => {| r_db := db; r_table := t; r_anon := t_anon m; r_name := fst kc; r_col := snd kc |})
      (t_cols m).

(** update_delta, L107-120, for one table (all callers pass one, table.py L140-147). *)
Definition update_delta (b : backend) (o : option exn) (d : delta) (db t : pystr) (m : tmeta)
    : delta * option exn :=
  let d' :=
    match self_meta d with
    | [] => {| d_class := d_class d; d_inst := Some [(db, [(t, m)])]; d_rows := d_rows d |}
    | M => mutate d (match dget M db with
                     | None => dset M db [(t, m)]
                     | Some T => dset M db (dset T t m)
                     end)
    end in
  persist b o d' (fun rows => rows ++ table_rows db t m).

(** delete_delta, L122-131.  Simplification: the names contain no quote, so that the text at L126
    selects exactly the rows with these two names. *)
Definition delete_delta (b : backend) (o : option exn) (d : delta) (db t : pystr) : delta * option exn :=
  match dget (self_meta d) db with
  | None => (d, Some KeyError)
  | Some T =>
    persist b o (mutate d (dset (self_meta d) db (dpop T t)))
      (filter (fun r => negb (seqb (r_db r) db && seqb (r_table r) t)))
  end.

(** load_delta, L149-168: one row.  'comment' is not stored: the entry has no comment afterwards. *)
Definition load_row (M : store) (r : mrow) : store :=
  let T := match dget M (r_db r) with Some T => T | None => [] end in
  let m := match dget T (r_table r) with
           | Some m => m
           | None => {| t_anon := r_anon r; t_cols := []; t_comment := None |}
           end in
  dset M (r_db r) (dset T (r_table r)
    {| t_anon := t_anon m; t_cols := dset (t_cols m) (r_name r) (r_col r); t_comment := t_comment m |}).
Definition load_delta (rows : list mrow) : store := fold_left load_row rows [].

(** The process starts again: __new__, L100-105. *)
Definition restart (d : delta) : delta :=
  {| d_class := load_delta (d_rows d); d_inst := None; d_rows := d_rows d |}.

(** [cls.meta[db][table_name]['columns']], L216: the class attribute. *)
Definition class_columns (d : delta) (db t : pystr) : res (dict colmeta) :=
  do T <- dgetE (d_class d) db; do m <- dgetE T t; Ok (t_cols m).

(** [Delta().meta.get(db, {})] when Delta().meta is not empty, else {} (clause/sql_clause.py
    L9-13): the metadata the rewriters see. *)
Definition db_meta (d : delta) (db : pystr) : dbmeta :=
  match self_meta d with
  | [] => []
  | M => match dget M db with Some T => T | None => [] end
  end.
