(** Vocabulary for the statements about ALTER TABLE ... ADD/DROP of keys and indexes. *)
From Coq Require Import String Ascii List NArith ZArith Bool.
From Verif Require Import Base JsonModel RewriteModel.
Import ListNotations.
Open Scope N_scope.

(** The changes: keys and indexes of one column. *)
Inductive change :=
| AddPrimary (c : pystr) | DropPrimary
| AddForeign (n c rt rc : pystr) | DropForeign (n : pystr)
| AddIndex (n c : pystr) | AddFulltext (n c : pystr) | AddUnique (n c : pystr) | DropIndex (n : pystr).

(** The dict of such a statement. *)
Definition column_list (c : pystr) : json := JList [JDict [(u "value", JStr c)]].
Definition change_dict (t : pystr) (x : change) : dict json :=
  (u "alter", JStr t) ::
  match x with
  | AddPrimary c => [(u "add primary key", column_list c)]
  | DropPrimary => [(u "drop primary key", JBool true)]
  | AddForeign n c rt rc =>
    [(u "add constraint", JStr n); (u "add foreign key", column_list c); (u "reference_table", JStr rt); (u "reference_feature", column_list rc)]
  | DropForeign n => [(u "drop foreign key", JStr n)]
  | AddIndex n c => [(u "add index", JStr n); (u "add index feature", column_list c)]
  | AddFulltext n c => [(u "add fulltext", JStr n); (u "add fulltext feature", column_list c)]
  | AddUnique n c => [(u "add unique", JStr n); (u "add unique feature", column_list c)]
  | DropIndex n => [(u "drop index", JStr n)]
  end.

(** The names in it. *)
Definition change_names (x : change) : list pystr :=
  match x with
  | DropPrimary => [] | AddPrimary c => [c] | AddForeign n c rt rc => [n; c; rt; rc]
  | DropForeign n | DropIndex n => [n]
  | AddIndex n c | AddFulltext n c | AddUnique n c => [n; c]
  end.

(** How it is written: keywords, names, parentheses; the name of the table may be in back quotes. *)
Inductive tok := K (k : string) | Table (t : pystr) | W (w : pystr) | P (c : N).
Definition in_parens (c : pystr) : list tok := [P 40; W c; P 41].
Definition change_toks (x : change) : list tok :=
  match x with
  | AddPrimary c => K "add" :: K "primary" :: K "key" :: in_parens c
  | DropPrimary => [K "drop"; K "primary"; K "key"]
  | AddForeign n c rt rc => [K "add"; K "constraint"; W n; K "foreign"; K "key"] ++ in_parens c ++ [K "references"; W rt] ++ in_parens rc
  | DropForeign n => [K "drop"; K "foreign"; K "key"; W n]
  | AddIndex n c => K "add" :: K "index" :: W n :: in_parens c
  | AddFulltext n c => K "add" :: K "fulltext" :: W n :: in_parens c
  | AddUnique n c => K "add" :: K "unique" :: W n :: in_parens c
  | DropIndex n => [K "drop"; K "index"; W n]
  end.
Definition toks (t : pystr) (x : change) : list tok := K "alter" :: K "table" :: Table t :: change_toks x.

(** How it is written out again. *)
Definition alter_text (t : pystr) (x : change) : pystr :=
  u "alter table " ++ t ++
  match x with
  | AddPrimary c => u " add primary key(" ++ c ++ u ");"
  | DropPrimary => u " drop primary key;"
  | AddForeign n c rt rc => u " add constraint " ++ n ++ u " foreign key(" ++ c ++ u ") REFERENCES " ++ rt ++ u "(" ++ rc ++ u ");"
  | DropForeign n => u " drop foreign key " ++ n ++ u ";"
  | AddIndex n c => u " add index " ++ n ++ u "(" ++ c ++ u ");"
  | AddFulltext n c => u " add fulltext " ++ n ++ u "(" ++ c ++ u ");"
  | AddUnique n c => u " add unique " ++ n ++ u "(" ++ c ++ u ");"
  | DropIndex n => u " drop index " ++ n ++ u ";"
  end.

(** Letters in lower case. *)
Definition lower (c : N) : N := if (65 <=? c) && (c <=? 90) then c + 32 else c.
(** A blank: space, tab, line feed, carriage return. *)
Definition is_blank (c : N) : bool := (c =? 32) || (c =? 9) || (c =? 10) || (c =? 13).
Section Written.
Variable alnum : N -> bool.
(** The characters of names. *)
Definition name_char (c : N) : bool := alnum c || (c =? 95).
Definition spelled (k : tok) (x : pystr) : Prop :=
  match k with
  | K k => map lower x = u k
  | Table t => x = t \/ x = 96 :: t ++ [96]
  | W w => x = w
  | P c => x = [c]
  end.
(** Two words do not touch. *)
Definition apart (x s : pystr) : Prop :=
  match s with c :: _ => name_char (last x 96) = true -> name_char c = false | [] => True end.
(** A text that is written with these tokens: blanks before each, and where two words would touch; a semicolon may follow, and after it a
    line feed. *)
Inductive written : list tok -> pystr -> Prop :=
| written_end b e : forallb is_blank b = true -> e = [] \/ e = [59] \/ e = [59; 10] -> written [] (b ++ e)
| written_tok k l b x s : forallb is_blank b = true -> spelled k x -> apart x s -> written l s -> written (k :: l) (b ++ x ++ s).
(** A name is a word that is not empty. *)
Definition name (w : pystr) : Prop := w <> [] /\ forallb name_char w = true.
Definition names_ok (t : pystr) (x : change) : Prop := Forall name (t :: change_names x).
End Written.
