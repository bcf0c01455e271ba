(** Vocabulary for the statements that compare the proxy with a plaintext database that gets the same SQL texts. *)
From Coq Require Import String Ascii List Arith NArith ZArith QArith Bool.
From Verif Require Import Base CryptoModel JsonModel RewriteModel SqlSpec EncSpec StmtSpec FmtModel SqlLex SqlRead ScrubModel OperModel OperSpec TextSpec LitModel LitSpec GramModel GramSpec.
Import ListNotations.

(** ** Texts that are written for the parser and for MySQL *)
(** What MySQL asks of the parts of a text beyond [writes]: no backslash in a string if backslashes do not escape; names that
    do not begin with a dollar sign or contain a backspace; a function name with its parenthesis directly behind it; no [==];
    no INSERT INTO TABLE. *)
Definition shared_part (bs : bool) (x : lexeme) (t next : pystr) : Prop :=
  match x with
  | LStr _ => bs = false -> ~ In 92%N t
  | LName v => hd 0%N v <> 36%N /\ ~ In 8%N v
  | LFun f => hd 0%N f <> 36%N /\ exists r, next = 40%N :: r
  | LSym s => s <> u "=="
  | LKw w => w <> u "table"
  | LNum _ => True
  end.
(** The conditions that do not depend on the kind of statement. *)
Definition readable_part (bs : bool) (x : lexeme) (t : pystr) : Prop :=
  match x with
  | LStr _ => bs = false -> ~ In 92%N t
  | LName v => hd 0%N v <> 36%N /\ ~ In 8%N v
  | LFun f => hd 0%N f <> 36%N
  | LSym s => s <> u "=="
  | LKw _ | LNum _ => True
  end.
Inductive readable (bs : bool) : pystr -> list lexeme -> Prop :=
| re_last x t w : writes x t w -> readable_part bs x t -> blanks w -> readable bs (t ++ w) [x]
| re_cons x t w rest ls : writes x t (w ++ rest) -> readable_part bs x t -> blanks w -> ls <> [] -> readable bs rest ls ->
    readable bs (t ++ w ++ rest) (x :: ls).
(** As [spelled] and [spells]; without comments, with at most one semicolon. *)
Inductive shared (bs : bool) : pystr -> list lexeme -> Prop :=
| sh_last x t w : writes x t w -> shared_part bs x t w -> blanks w -> shared bs (t ++ w) [x]
| sh_cons x t w rest ls : writes x t (w ++ rest) -> shared_part bs x t (w ++ rest) -> blanks w -> ls <> [] -> shared bs rest ls ->
    shared bs (t ++ w ++ rest) (x :: ls).
Definition shared_text (bs : bool) (c : cmd sx) (text : pystr) : Prop :=
  exists ls lead s fin, cmd_lex c ls /\ text = lead ++ s ++ fin /\ blanks lead /\ shared bs s ls /\
    (fin = [] \/ exists w, fin = 59%N :: w /\ blanks w).

(** ** The plaintext database *)
(** A semicolon at the end is no part of the statement. *)
Definition unended (ts : list token) : list token :=
  match rev ts with
  | TSym s :: r => if seqb s (u ";") then rev r else ts
  | _ => ts
  end.
Definition read_app (n : nat) (bs : bool) (text : pystr) : option (cmd tree) :=
  match lex bs true text with Some ts => read_cmd n (unended ts) | None => None end.
(** The database reads the text and does what it says. *)
Definition direct (bs : bool) (n : nat) (D : db) (text : pystr) : res (db * list (list sqlv)) :=
  match read_app n bs text with
  | None => Err DbError
  | Some q => obey D q
  end.
