(** Vocabulary for the statements about the type of a statement. *)
From Coq Require Import String Ascii List NArith ZArith Bool.
From Verif Require Import Base ExecModel ClassifyModel.
Import ListNotations.

(** Comments; a comment is never the text ".". *)
Definition comments (l : list tok) : Prop := Forall (fun t => t_comment t = true /\ t_text t <> u ".") l.

(** A keyword at the head of [l]: no comment, no dot, not followed by a dot. *)
Definition starts_dotted (l : list tok) : Prop := exists t r, l = t :: r /\ t_text t = u ".".
Definition word (f : tok) (rest : list tok) : Prop :=
  t_comment f = false /\ t_text f <> u "." /\ ~ starts_dotted rest.

(** The keyword as it is compared: without quotes and blanks, in upper case. *)
Definition kw (uc : N -> pystr) (t : tok) : pystr := normalized uc (unquoted (t_text t)).

Definition two_word (k : pystr) : Prop := k = u "CREATE" \/ k = u "ALTER".

(** The table of the statement types that are accepted, as pairs. *)
Definition accepted (k : pystr) (t : qtype) : Prop :=
  In (k, t) [(u "INSERT", QInsert); (u "REPLACE", QReplace); (u "UPDATE", QUpdate); (u "SELECT", QSelect);
             (u "DELETE", QDelete); (u "WITH", QSelect); (u "CREATETABLE", QCreate);
             (u "ALTERTABLE", QAlter); (u "DROP", QDrop)].
Definition decides (k : pystr) (r : res qtype) : Prop :=
  (forall t, accepted k t -> r = Ok t) /\ ((forall t, ~ accepted k t) -> r = Err ValueError).

Definition lpar : tok := mkTok (u "(") false.

(** Two texts that differ only in case, character by character, and token lists of such texts. *)
Definition same_text (uc : N -> pystr) (a b : pystr) : Prop := Forall2 (fun x y => uc x = uc y) a b.
Definition same_tok (uc : N -> pystr) (a b : tok) : Prop :=
  same_text uc (t_text a) (t_text b) /\ t_comment a = t_comment b.
(** The characters that the code looks for have no other case: [`], the double quote, the dot, the
    left parenthesis, blank, newline, tab, carriage return. *)
Definition caseless (uc : N -> pystr) : Prop :=
  forall c d, In c [96; 34; 46; 40; 32; 10; 9; 13]%N -> uc d = uc c -> d = c.

(** str.upper on ASCII letters, the identity elsewhere: the instance of the examples. *)
Definition ascii_up (c : N) : pystr := [if (N.leb 97 c && N.leb c 122)%bool then (c - 32)%N else c].
