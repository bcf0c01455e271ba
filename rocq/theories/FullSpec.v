(** Vocabulary for the statements that begin with the SQL text of the application. *)
From Coq Require Import String Ascii List Arith NArith ZArith QArith Bool.
From Verif Require Import Base CryptoModel JsonModel RewriteModel SqlSpec EncSpec StmtSpec FmtModel SqlLex SqlRead ScrubModel OperModel OperSpec TextSpec LitModel LitSpec GramModel GramSpec FullModel.
Import ListNotations.

(** The text writes the statement [c] in one of the ways the parser allows. *)
Definition writes_cmd (c : cmd sx) (text : pystr) : Prop := exists ls, cmd_lex c ls /\ spells ls text.

(** One text through the proxy and back: the text that is sent is understood and obeyed by the database, the answer is
    decrypted. *)
Definition app_proxy (uname : pystr -> option N) (more : pystr -> pystr -> res pystr) (ft : pystr -> bool) (alnum : N -> bool) (fstr : Q -> pystr)
    (bs : bool) (n : nat) (E : env) (M : dbmeta) (D : db) (text : pystr) : res (db * list (list sqlv)) :=
  do '(sent, table, st) <- rewrite_text uname more ft alnum fstr E M text;
  match sent with
  | None => Err DbError
  | Some s =>
    match read_text n bs true s with
    | None => Err DbError
    | Some q => do '(D', rs) <- obey D q; do out <- decrypt_result E M table st rs; Ok (D', out)
    end
  end.
