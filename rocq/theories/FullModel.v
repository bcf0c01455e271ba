(** From the text of the application to the text for the database: Rewriter.rewrite_query, scheduler/handers/rewrite_hander.py
    L19-77, when the request has no encrypted columns. *)
From Coq Require Import String Ascii List Arith NArith ZArith QArith Bool.
From Verif Require Import Base CryptoModel JsonModel RewriteModel FmtModel ScrubModel OperModel OperSpec GramModel AlterModel.
Import ListNotations.

(** The parsed statement, rewrite_hander.py L27-28. *)
Definition parse_text (uname : pystr -> option N) (more : pystr -> pystr -> res pystr) (ft : pystr -> bool) (alnum : N -> bool) (text : pystr) : res json :=
  match parse_alter_key alnum text with
  | [] => do o <- parse_mysql uname more ft text; Ok (json_of o)
  | d => Ok (JDict d)
  end.
(** The text of the rewritten statement, rewrite_hander.py L75-77; None when format_alter_key returns nothing. *)
Definition write_text (alnum : N -> bool) (fstr : Q -> pystr) (j : json) : res (option pystr) :=
  do alter <- contains j (u "alter");
  if alter then match j with JDict d => format_alter_key d | _ => Err TypeError end
  else do t <- format_sql alnum fstr j; Ok (Some t).
(** rewrite_query, rewrite_hander.py L19-77: the text, the table and the state for the decryption. *)
Definition rewrite_text (uname : pystr -> option N) (more : pystr -> pystr -> res pystr) (ft : pystr -> bool) (alnum : N -> bool) (fstr : Q -> pystr)
    (E : env) (M : dbmeta) (text : pystr) : res (option pystr * json * sstate) :=
  do j <- parse_text uname more ft alnum text;
  do '(j', table, st) <- rewrite_query E M j;
  do sent <- write_text alnum fstr j';
  Ok (sent, table, st).
