(** * A lexer of SQL text, for the statements about the SQL writer

    This is specification, not a model of /repo code: how a database reads SQL text.
    [bs] is MySQL's default mode, where a backslash escapes inside quotes
    (NO_BACKSLASH_ESCAPES off); [dq] is MySQL's default mode for double quotes, where they
    delimit strings and not identifiers (ANSI_QUOTES off).  Standard SQL is
    [bs = dq = false]. *)
From Coq Require Import String Ascii List NArith ZArith Bool.
From Verif Require Import Base.
Import ListNotations.

Inductive token :=
| TWord (s : pystr)      (* unquoted word: identifier or keyword *)
| TQuoted (s : pystr)    (* quoted identifier *)
| TStr (s : pystr)       (* string *)
| TNum (s : pystr)       (* digits *)
| TSym (s : pystr).      (* operator or punctuation *)

Definition letter (c : N) : bool := ((N.leb 65 c && N.leb c 90) || (N.leb 97 c && N.leb c 122))%bool.
Definition digit (c : N) : bool := (N.leb 48 c && N.leb c 57)%bool.
(** Characters of unquoted identifiers: letters, digits, [_], [$] and everything beyond ASCII. *)
Definition word_start (c : N) : bool := (letter c || N.eqb c 95 || N.leb 128 c)%bool.
Definition word_char (c : N) : bool := (word_start c || digit c || N.eqb c 36)%bool.
Definition space (c : N) : bool := (N.eqb c 32 || (N.leb 9 c && N.leb c 13))%bool.

Fixpoint span (p : N -> bool) (s : pystr) : pystr * pystr :=
  match s with
  | c :: r => if p c then let (a, b) := span p r in (c :: a, b) else ([], s)
  | [] => ([], [])
  end.

(** What a backslash sequence stands for in MySQL: [\0 \b \n \r \t \Z]; [\%] and [\_] keep
    the backslash; otherwise the character itself. *)
Definition unescape (c : N) : pystr :=
  if N.eqb c 48 then [0%N] else if N.eqb c 98 then [8%N] else if N.eqb c 110 then [10%N]
  else if N.eqb c 114 then [13%N] else if N.eqb c 116 then [9%N] else if N.eqb c 90 then [26%N]
  else if N.eqb c 37 || N.eqb c 95 then [92%N; c] else [c].

(** The rest of a quoted text after its opening quote [q]: the content and what follows the closing
    quote; two quotes stand for one. *)
Fixpoint read_quoted (bs : bool) (q : N) (s : pystr) : option (pystr * pystr) :=
  match s with
  | [] => None
  | c :: r =>
    if N.eqb c q then
      match r with
      | d :: r' => if N.eqb d q
                   then match read_quoted bs q r' with Some (a, b) => Some (q :: a, b) | None => None end
                   else Some ([], r)
      | [] => Some ([], [])
      end
    else if bs && N.eqb c 92 then
      match r with
      | d :: r' => match read_quoted bs q r' with Some (a, b) => Some (unescape d ++ a, b) | None => None end
      | [] => None
      end
    else match read_quoted bs q r with Some (a, b) => Some (c :: a, b) | None => None end
  end.

(** Symbols of two and of one character; comment starts are no symbols. *)
Definition symbols2 : list pystr := map u ["<>"; "<="; ">="; "||"; "!="; ":="; "&&"; "<<"; ">>"]%string.
Definition comment_starts : list pystr := map u ["--"; "/*"]%string.
Definition symbols1 : pystr := u "+-*/%&|=<>(),.~;![]:^".
Definition smem2 (x : pystr) (l : list pystr) : bool := existsb (seqb x) l.

Definition read_symbol (s : pystr) : option (token * pystr) :=
  match s with
  | c :: r =>
    let one := if existsb (N.eqb c) symbols1 then Some (TSym [c], r) else None in
    match r with
    | d :: r' => if smem2 [c; d] comment_starts then None
                 else if smem2 [c; d] symbols2 then Some (TSym [c; d], r') else one
    | [] => one
    end
  | [] => None
  end.

Definition read_token (bs dq : bool) (s : pystr) : option (token * pystr) :=
  match s with
  | [] => None
  | c :: r =>
    if N.eqb c 39 then match read_quoted bs 39 r with Some (a, b) => Some (TStr a, b) | None => None end
    else if N.eqb c 34 then
      match read_quoted (bs && dq) 34 r with Some (a, b) => Some (if dq then TStr a else TQuoted a, b) | None => None end
    else if N.eqb c 96 then match read_quoted false 96 r with Some (a, b) => Some (TQuoted a, b) | None => None end
    else if word_start c then let (a, b) := span word_char s in Some (TWord a, b)
    else if digit c then
      let (a, b) := span digit s in
      match b with d :: _ => if word_char d then None else Some (TNum a, b) | [] => Some (TNum a, b) end
    else read_symbol s
  end.

(** The tokens of a text: [None] when it cannot be read. *)
Fixpoint lex_fuel (n : nat) (bs dq : bool) (s : pystr) : option (list token) :=
  match s with
  | [] => Some []
  | c :: r =>
    match n with
    | O => None
    | S m =>
      if space c then lex_fuel m bs dq r
      else match read_token bs dq s with
           | Some (t, b) => match lex_fuel m bs dq b with Some ts => Some (t :: ts) | None => None end
           | None => None
           end
    end
  end.
Definition lex (bs dq : bool) (s : pystr) : option (list token) := lex_fuel (length s) bs dq s.
