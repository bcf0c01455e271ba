(** Vocabulary for the statements about INSERT ... VALUES. *)
From Coq Require Import String Ascii List NArith ZArith Bool.
From Verif Require Import Base JsonModel ScrubModel ValuesModel OperSpec.
Import ListNotations.

(** The expressions of a row: a number, a text, NULL, a column, an operator or function, a dict of another kind (such as a
    hexadecimal number). *)
Inductive cell :=
| Num (z : Z) | Text (s : pystr) | Null | Column (s : pystr)
| Expr (op : pystr) (args : pv) (kwargs : list (pystr * pv)) | Other (d : list (pystr * pv)).
(** What the grammar gives for each. *)
Definition token (c : cell) : pv :=
  match c with
  | Num z => PNum z | Text s => PDict [(u "literal", PText s)] | Null => PNull | Column s => PText s
  | Expr op a k => PCall op a k | Other d => PDict d
  end.
(** Without the word literal in the name of a column, and with another key than literal in the last case. *)
Definition cell_ok (c : cell) : Prop :=
  match c with Column s => substrb (u "literal") s = false | Other d => dget d (u "literal") = None | _ => True end.
(** A number other than 0, a text other than the empty one. *)
Definition counts (c : cell) : bool :=
  match c with Num z => negb (Z.eqb z 0) | Text [] => false | Text _ => true | _ => false end.
(** Every row has at least two values, and each of them counts. *)
Definition plain_rows (rows : list (list cell)) : bool :=
  forallb (fun r => match r with _ :: _ :: _ => forallb counts r | _ => false end) rows.
(** The value of a number or a text. *)
Definition value (c : cell) : out := match c with Num z => ONum z | Text s => OText s | _ => ONone end.

(** Equal as Python dicts: the same value under each key. *)
Definition same_dict (a b : json) : Prop :=
  match a, b with JDict d, JDict e => forall k, dget d k = dget e k | _, _ => False end.

(** The values of the expressions as the rewriting takes them: a number, a text under the key literal, the dict that stands
    for NULL, the name of a column. *)
Definition cell_json (c : cell) : json :=
  match c with
  | Num z => JInt z
  | Text s => JDict [(u "literal", JStr s)]
  | Null => JDict [(u "null", JDict [])]
  | Column s => JStr s
  | _ => OperSpec.json_of (scrub (token c))
  end.
(** The same values without the dicts: what a row of plain values becomes. *)
Definition plain_json (c : cell) : json := match c with Num z => JInt z | Text s => JStr s | _ => JNull end.
(** A row of plain values, by the names of its columns or without them. *)
Definition row_json (cols : list pystr) (r : list cell) : json :=
  match cols with [] => JList (map plain_json r) | _ => JDict (combine cols (map plain_json r)) end.
(** A text occurs within a text. *)
Definition occurs (s text : pystr) : Prop := exists a b, text = a ++ s ++ b.
