(** Vocabulary for the claims about the web front end. *)
From Coq Require Import String Ascii List NArith ZArith Bool.
From Verif Require Import Base JsonText JsonTextProof FrontModel.
Import ListNotations.

(** A request of the query console: a statement, a data source and the ciphertext flag, no table
    creation, and a row limit that is missing or a number. *)
Definition console_body (d : dict jv) (s : pystr) (id : jv) : Prop :=
  dget d (u "create_table") = None /\ dget d (u "sqlQuery") = Some (VStr s)
  /\ dget d (u "jdbcDataSourceId") = Some id /\ (exists ct, dget d (u "ciphertext") = Some ct)
  /\ (dget d (u "resultLimit") = None \/ exists z, dget d (u "resultLimit") = Some (VInt z)).

(** A request that creates a table. *)
Definition create_body (d : dict jv) (q : jv) (enc : dict jv) (id : jv) : Prop :=
  dget d (u "create_table") = Some q
  /\ (exists sel, dget d (u "selectedJdbcDataSource") = Some (VDict sel) /\ dget sel (u "value") = Some id)
  /\ dget d (u "encrypted_columns") = Some (VDict enc)
  /\ (dget d (u "resultLimit") = None \/ exists z, dget d (u "resultLimit") = Some (VInt z)).

(** The metadata database knows the data source under this URL, user and password. *)
Definition source repr (db : pystr -> res (list (list jv))) (id : jv) (url : pystr) (user pw : jv)
  : Prop :=
  exists row rest,
    db (source_sql repr id) = Ok (row :: rest) /\ nth_error row 2 = Some (VStr url)
    /\ nth_error row 4 = Some user /\ nth_error row 5 = Some pw.

(** [q] is a text without trailing semicolon. *)
Definition clean (q : pystr) : Prop := q <> [] /\ last q 0%N <> 59%N.

(** The console runs [q] with the connection data [kw]: whatever the execution layer does, its answer
    to exactly this call is formatted. *)
Definition console_runs repr float_int eval db body (kw : kwargs) (q : jv) : Prop :=
  forall invoke batch,
    query_post repr float_int eval invoke batch db body
    = do r <- invoke kw q (VDict []); format_result r.

(** The value a row keeps under a name: the last cell with that name. *)
Definition last_under (names : list pystr) (row : list jv) (k : pystr) (v : jv) : Prop :=
  exists j, nth_error names j = Some k /\ nth_error row j = Some v
            /\ forall j', (j < j')%nat -> nth_error names j' = Some k -> nth_error row j' = None.

(** A cell that JSON can carry, a column name of Unicode scalars. *)
Definition cells_ok (rows : list (list jv)) : Prop := Forall (Forall wfj) rows.
Definition names_ok (names : list pystr) : Prop := Forall (Forall scalar) names.

(** Stored metadata rows: table, column and the column's record, as metadata.py L141-142 writes
    them. *)
Record mrow := MRow { mr_table : pystr; mr_column : pystr; mr_type : pystr; mr_plain : bool;
                      mr_more : dict jv }.
Definition mr_info (m : mrow) : jv :=
  VDict ([(u "type", VStr (mr_type m)); (u "plaintext", VBool (mr_plain m))] ++ mr_more m).
Definition stored (m : mrow) (row : pystr * pystr) : Prop :=
  fst row = mr_table m /\ dumps (VDict [(mr_column m, mr_info m)]) = Ok (snd row).
Definition mrow_ok (m : mrow) : Prop :=
  Forall scalar (mr_table m) /\ wfj (VDict [(mr_column m, mr_info m)]).

(** How the listing shows a column: its name, marked with " *" when it is encrypted, with a fixed
    width by type; a column of any other type is shown as an empty object. *)
Definition shown (m : mrow) : jv :=
  let name := if mr_plain m then mr_column m else mr_column m ++ u " *" in
  if seqb (mr_type m) (u "varchar") then
    VDict [(u "name", VStr name); (u "javaType", VStr (u "VARCHAR"));
           (u "dbType", VStr (u "VARCHAR")); (u "length", VInt 258)]
  else if seqb (mr_type m) (u "int") then
    VDict [(u "name", VStr name); (u "javaType", VStr (u "INTEGER"));
           (u "dbType", VStr (u "INT UNSIGNED")); (u "length", VInt 20)]
  else VDict [].

(** A table of the listing. *)
Definition listed (t : pystr * list jv) : jv :=
  VDict [(u "name", VStr (fst t)); (u "type", VStr (u "USER TABLE")); (u "columns", VList (snd t))].

(** The columns of a listing one by one, each with its table. *)
Definition flat (ts : list (pystr * list jv)) : list (pystr * jv) :=
  concat (map (fun t => map (fun c => (fst t, c)) (snd t)) ts).

(** Neighbouring elements differ. *)
Fixpoint no_repeat (l : list pystr) : Prop :=
  match l with
  | a :: ((b :: _) as r) => a <> b /\ no_repeat r
  | _ => True
  end.
