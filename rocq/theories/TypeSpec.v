(** Vocabulary for the statements about the type of a statement from its text (C99). *)
From Coq Require Import String Ascii List Arith NArith ZArith QArith Bool.
From Verif Require Import Base CryptoModel JsonModel RewriteModel SqlSpec EncSpec StmtSpec ExecModel ScrubModel OperModel OperSpec EndSpec TextSpec SysSpec SysTextSpec
  LitModel LitSpec GramModel GramSpec DirectSpec DdlSpec AppSysSpec TypeModel.
Import ListNotations.

(** str.upper on the letters of ASCII. *)
Definition upper_ok (uc : N -> pystr) : Prop :=
  (forall c, (97 <= c <= 122)%N -> uc c = [(c - 32)%N]) /\ (forall c, (65 <= c <= 90)%N -> uc c = [c]).
(** A bare word: letters, digits and _ of ASCII; not ZONE; no string directly behind it. *)
Definition bare (t next : pystr) : Prop :=
  Forall (fun c => keyword_char c = true /\ c <> 36%N) t /\ map low_char t <> u "zone" /\ hd 0%N next <> 39%N.
(** What the tokenizer asks of the parts of a text beyond [writes]: bare names as above, names in back quotes without other
    quotes; no empty string in double quotes, and no back quotes in such strings; no %. *)
Definition tame_part (x : lexeme) (t next : pystr) : Prop :=
  match x with
  | LKw _ | LNum _ => hd 0%N next <> 39%N
  | LFun _ => bare t next
  | LName _ => bare t next \/ (hd 0%N t = 96%N /\ ~ In 39%N t /\ ~ In 34%N t /\ hd 0%N next <> 34%N)
  | LStr _ => t <> [34; 34]%N /\ (hd 0%N t = 34%N -> ~ In 96%N t /\ hd 0%N next <> 96%N)
  | LSym s => s <> u "%"
  end.
Inductive tame : pystr -> list lexeme -> Prop :=
| ta_last x t w : writes x t w -> tame_part x t w -> blanks w -> tame (t ++ w) [x]
| ta_cons x t w rest ls : writes x t (w ++ rest) -> tame_part x t (w ++ rest) -> blanks w -> ls <> [] -> tame rest ls ->
    tame (t ++ w ++ rest) (x :: ls).
(** A text of such parts, with at most one semicolon; double quotes and backslashes do not occur together. *)
Definition tame_text (parts : list lexeme -> Prop) (text : pystr) : Prop :=
  (~ In 34%N text \/ ~ In 92%N text) /\
  exists ls lead s fin, parts ls /\ text = lead ++ s ++ fin /\ blanks lead /\ tame s ls /\
    (fin = [] \/ exists w, fin = 59%N :: w /\ blanks w).
(** The text of a statement, and its type. *)
Definition tame_of (w : SysTextSpec.written) (text : pystr) : Prop :=
  match w with
  | WCreate j => exists d, j = def_json d /\ tame_text (def_lex d) text
  | WDrop t => tame_text (eq [K "drop"; K "table"; LName t]) text
  | WCmd c => tame_text (cmd_lex c) text
  end.
Definition type_of (w : SysTextSpec.written) : qtype := match w with WCreate _ => QCreate | WDrop _ => QDrop | WCmd c => kind c end.

(** The requests of C98, the type of each text left to the tokenizer. *)
Definition stands_text (bs : bool) (a : aevent) (e : tevent) : Prop :=
  match a, e with
  | AText rnd db text enc fresh anon, TAsk rnd' db' w enc' fresh' anon' =>
    rnd = rnd' /\ db = db' /\ fresh = fresh' /\ anon = anon' /\ enc = match w with WCreate _ => Some enc' | _ => None end /\
    text_of bs w text /\ tame_of w text
  | AReboot, TReboot => True
  | _, _ => False
  end.
