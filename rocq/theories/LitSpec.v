(** Vocabulary for the statements about string literals and quoted names. *)
From Coq Require Import String Ascii List NArith ZArith Bool.
From Verif Require Import Base SqlLex LitModel.
Import ListNotations.
Open Scope N_scope.

Definition surrogate (c : N) : bool := (55296 <=? c) && (c <=? 57343).
(** No backslash, no line end, no NUL, no lone surrogate. *)
Definition clean_char (c : N) : bool := negb ((c =? 92) || (c =? 10) || (c =? 13) || (c =? 0) || surrogate c).
Definition clean (s : pystr) : Prop := forallb clean_char s = true.
(** The text does not go on with the character [q]. *)
Definition not_next (q : N) (s : pystr) : Prop := match s with c :: _ => c <> q | [] => True end.
(** Digits, and the characters of plain names: @ _ $, digits, letters of Latin alphabets. *)
Definition is_digit (c : N) : bool := (48 <=? c) && (c <=? 57).
Definition ident_char (c : N) : bool :=
  (c =? 64) || (c =? 95) || (c =? 36) || is_digit c || ((65 <=? c) && (c <=? 90)) || ((97 <=? c) && (c <=? 122)) ||
  ((192 <=? c) && (c <=? 214)) || ((216 <=? c) && (c <=? 246)) || ((248 <=? c) && (c <=? 447)).
(** The quote [q] doubled. *)
Definition doubled (q : N) (s : pystr) : pystr := flat_map (fun c => if c =? q then [q; q] else [c]) s.

(** The parts of a string literal: a character, a doubled quote, a backslash with one of the characters that stand for the
    same in MySQL and in Python. *)
Inductive piece := Chr (c : N) | Two | Esc (c : N).
Definition common_escapes : list N := [98; 110; 114; 116; 92; 34; 37; 95].
Definition piece_ok (p : piece) : Prop :=
  match p with Chr c => clean_char c = true /\ c <> 39 | Two => True | Esc c => In c common_escapes end.
Definition piece_src (p : piece) : pystr := match p with Chr c => [c] | Two => [39; 39] | Esc c => [92; c] end.
(** What MySQL reads. *)
Definition piece_val (p : piece) : pystr := match p with Chr c => [c] | Two => [39] | Esc c => unescape c end.
Definition src (l : list piece) : pystr := flat_map piece_src l.
Definition val (l : list piece) : pystr := flat_map piece_val l.

(** The characters that are escaped in Python after a backslash. *)
Definition python_escapes : list N := [92; 39; 34; 97; 98; 102; 110; 114; 116; 118; 10; 120; 117; 85; 78; 48; 49; 50; 51; 52; 53; 54; 55].

(** Names as written: in back quotes, in brackets, plain. *)
Inductive written := Back (v : pystr) | Bracket (v : pystr) | Simple (v : pystr).
Definition name_of (w : written) : pystr := match w with Back v | Bracket v | Simple v => v end.
Definition text_of (w : written) : pystr :=
  match w with Back v => 96 :: doubled 96 v ++ [96] | Bracket v => 91 :: doubled 93 v ++ [93] | Simple v => v end.
(** A name is not empty and clean, without the characters that split_field uses as marks; a plain one consists of the
    characters of identifiers and does not start with a digit. *)
Definition written_ok (w : written) : Prop :=
  clean (name_of w) /\ name_of w <> [] /\ ~ In 7 (name_of w) /\ ~ In 8 (name_of w) /\
  match w with Simple v => forallb ident_char v = true /\ is_digit (hd 0 v) = false | _ => True end.
(** A text of blanks. *)
Definition blanks (s : pystr) : Prop := Forall (fun c => In c [32; 9; 10; 13]) s.
(** A further name with the blanks before and after the dot. *)
Definition further : Type := (pystr * pystr * written)%type.
Definition f_name (x : further) : written := snd x.
Definition further_ok (x : further) : Prop := blanks (fst (fst x)) /\ blanks (snd (fst x)) /\ written_ok (snd x).
(** The text of a dotted name. *)
Definition dotted (w : written) (l : list further) : pystr :=
  text_of w ++ flat_map (fun x => fst (fst x) ++ 46 :: snd (fst x) ++ text_of (snd x)) l.
(** What may follow: no dot, not even after blanks, no quote, no character of identifiers, no dash. *)
Definition ends (rest : pystr) : Prop :=
  (forall b r, rest = b ++ 46 :: r -> ~ blanks b) /\
  match rest with c :: _ => c <> 96 /\ c <> 93 /\ c <> 45 /\ ident_char c = false | [] => True end.

(** A character is the hexadecimal digit, or the octal digit, with the given value. *)
Definition hex_digit (c : N) (n : nat) : Prop := nth_error (u "0123456789abcdef") n = Some c \/ nth_error (u "0123456789ABCDEF") n = Some c.
Definition octal_digit (n : nat) : N := nth n (u "01234567") 0.
(** The number written in octal, its first digit first. *)
Definition octal_value (l : list nat) : N := fold_left (fun acc d => 8 * acc + N.of_nat d) l 0.
